(** Facts about the text utilities and the registries. *)
From Verif Require Import Base Strings StringFacts Syntax Registry Text SpecText SettersFacts.
From Coq Require Import Lia.

(** ** str2Bool *)
Lemma lower_same : forall c, same_letter c (ascii_lower c).
Proof.
  intros c. unfold ascii_lower.
  destruct ((65 <=? N_of_ascii c)%N && (N_of_ascii c <=? 90)%N) eqn:E; [|apply sl_same].
  apply andb_true_iff in E. destruct E as [E1 E2]. apply N.leb_le in E1, E2.
  assert (H := sl_case (N.to_nat (N_of_ascii c) - 65)).
  assert (Hk : (N.to_nat (N_of_ascii c) - 65 < 26)%nat) by lia.
  specialize (H Hk).
  replace (65 + (N.to_nat (N_of_ascii c) - 65)) with (N.to_nat (N_of_ascii c)) in H by lia.
  replace (97 + (N.to_nat (N_of_ascii c) - 65)) with (N.to_nat (N_of_ascii c + 32)) in H by lia.
  unfold ascii_of_nat in H. rewrite !N2Nat.id, ascii_N_embedding in H. exact H.
Qed.

Lemma same_lower : forall c d, same_letter c d -> ascii_lower d = d -> ascii_lower c = d.
Proof.
  intros c d H Hd. destruct H as [c|k Hk]; [exact Hd|]. clear Hd.
  do 26 (destruct k as [|k]; [reflexivity|]). lia.
Qed.

Lemma lower_iff : forall w s, py_lower w = w -> (py_lower s = w <-> same_but_case s w).
Proof.
  intros w. induction w as [|d w IH]; intros s Hw; split; intros H.
  - destruct s; [constructor|discriminate].
  - inversion H. reflexivity.
  - destruct s as [|c s]; [discriminate|]. cbn [py_lower] in *. injection H as Hc Hs.
    injection Hw as Hd Hw. constructor.
    + rewrite <- Hc. apply lower_same.
    + apply IH; assumption.
  - inversion H; subst. cbn [py_lower] in *. injection Hw as Hd Hw. f_equal.
    + apply same_lower; assumption.
    + apply IH; assumption.
Qed.

Lemma str2bool_iff : forall s,
  str2bool s = true <-> exists w, In w ["yes"; "true"; "t"; "1"] /\ same_but_case s w.
Proof.
  intros s. unfold str2bool. rewrite str_in_iff. split.
  - intros H. exists (py_lower s). split; [exact H|]. apply lower_iff; [|reflexivity].
    destruct H as [<-|[<-|[<-|[<-|[]]]]]; reflexivity.
  - intros (w & Hw & H). assert (Hl : py_lower w = w).
    { destruct Hw as [<-|[<-|[<-|[<-|[]]]]]; reflexivity. }
    apply (lower_iff w s Hl) in H. rewrite H. exact Hw.
Qed.

(** ** Entries of a comma separated list *)
Lemma split_no_char : forall s e, In e (py_split "," s) -> has_char "," e = false.
Proof.
  intros s. remember (String.length s) as n eqn:Hn.
  assert (Hle : String.length s <= n) by lia. clear Hn. revert s Hle.
  induction n as [|n IH]; intros s Hle e He.
  - destruct s as [|c s]; [|simpl in Hle; lia]. destruct He as [<-|[]]. reflexivity.
  - destruct (has_char "," s) eqn:E.
    + apply has_char_split in E. destruct E as (a & b & -> & Ha).
      rewrite split_char_app in He by exact Ha. destruct He as [<-|He]; [exact Ha|].
      apply (IH b); [|exact He]. rewrite app_length_s in Hle. simpl in Hle. lia.
    + rewrite split_char_none in He by exact E. destruct He as [<-|[]]. exact E.
Qed.

Lemma entries_split : forall s, entries s (py_split "," s).
Proof.
  intros s. split; [apply py_split_not_nil|]. split; [symmetry; apply join_split|apply split_no_char].
Qed.

Lemma entries_unique : forall l s, entries s l -> py_split "," s = l.
Proof.
  induction l as [|e l IH]; intros s (Hl & -> & Hc); [contradiction|].
  destruct l as [|e' l].
  - cbn [py_join]. apply split_char_none. apply Hc. left. reflexivity.
  - change (py_join "," (e :: e' :: l)) with (e ++ String ","%char (py_join "," (e' :: l)))%string.
    rewrite split_char_app by (apply Hc; left; reflexivity). f_equal. apply IH.
    split; [discriminate|]. split; [reflexivity|]. intros x Hx. apply Hc. right. exact Hx.
Qed.

(** ** strip *)
Lemma lstrip_blank : forall l s, all_blank l -> lstrip (l ++ s) = lstrip s.
Proof.
  induction l as [|c l IH]; intros s H; [reflexivity|]. destruct H as [Hc H]. simpl. rewrite Hc. apply IH, H.
Qed.

Lemma rstrip_blank : forall r, all_blank r -> rstrip r = "".
Proof.
  induction r as [|c r IH]; intros H; [reflexivity|]. destruct H as [Hc H]. simpl.
  rewrite (IH H), Hc. reflexivity.
Qed.

Lemma rstrip_app_blank : forall t r, all_blank r -> rstrip (t ++ r) = rstrip t.
Proof.
  induction t as [|c t IH]; intros r H; simpl; [apply rstrip_blank, H|]. rewrite (IH r H). reflexivity.
Qed.

Lemma rstrip_id : forall t, (forall c u, t = (u ++ String c "")%string -> is_space c = false) -> rstrip t = t.
Proof.
  induction t as [|c t IH]; intros H; [reflexivity|]. cbn [rstrip].
  rewrite IH by (intros d u ->; apply (H d (String c u)); reflexivity).
  destruct t as [|d t]; [|reflexivity]. rewrite (H c ""); reflexivity.
Qed.

Lemma trimmed_strip : forall s t, trimmed s t -> py_strip s = t.
Proof.
  intros s t (l & r & -> & Hl & Hr & Hf & Hb). unfold py_strip. rewrite lstrip_blank by exact Hl.
  destruct t as [|c t].
  - cbn [append]. replace r with (r ++ "")%string by apply app_empty_r.
    rewrite lstrip_blank by exact Hr. reflexivity.
  - cbn [append lstrip]. rewrite (Hf c t eq_refl).
    change (String c (t ++ r)) with (String c t ++ r)%string.
    rewrite rstrip_app_blank by exact Hr. apply rstrip_id, Hb.
Qed.

Lemma lstrip_spec : forall s, exists l, s = (l ++ lstrip s)%string /\ all_blank l /\
  (forall c u, lstrip s = String c u -> is_space c = false).
Proof.
  induction s as [|c s (l & Hs & Hl & Hf)].
  - exists "". split; [reflexivity|]. split; [exact I|]. intros c u H. discriminate.
  - cbn [lstrip]. destruct (is_space c) eqn:E.
    + exists (String c l). split; [cbn [append]; rewrite <- Hs; reflexivity|]. split; [split; assumption|exact Hf].
    + exists "". split; [reflexivity|]. split; [exact I|]. intros d u H. injection H as <- _. exact E.
Qed.

Lemma rstrip_spec : forall s, exists r, s = (rstrip s ++ r)%string /\ all_blank r /\
  (forall c u, rstrip s = (u ++ String c "")%string -> is_space c = false).
Proof.
  induction s as [|c s (r & Hs & Hr & Hb)].
  - exists "". split; [reflexivity|]. split; [exact I|]. intros c u H. destruct u; discriminate.
  - cbn [rstrip]. destruct (rstrip s) as [|d t] eqn:E.
    + cbn [append] in Hs. subst s. destruct (is_space c) eqn:Ec.
      * exists (String c r). split; [reflexivity|]. split; [split; assumption|].
        intros x u H. destruct u; discriminate.
      * exists r. split; [reflexivity|]. split; [exact Hr|].
        intros x u H. destruct u as [|y u]; injection H; intros; subst; [exact Ec|].
        destruct u; discriminate.
    + exists r. split; [cbn [append] in *; rewrite <- Hs; reflexivity|]. split; [exact Hr|].
      intros x u H. destruct u as [|y u]; [discriminate|]. injection H as _ H. apply (Hb x u), H.
Qed.

Lemma strip_trimmed : forall s, trimmed s (py_strip s).
Proof.
  intros s. unfold py_strip. destruct (lstrip_spec s) as (l & Hs & Hl & Hf).
  destruct (rstrip_spec (lstrip s)) as (r & Hr & Hrb & Hb).
  exists l, r. split; [rewrite <- Hr; exact Hs|]. split; [exact Hl|]. split; [exact Hrb|]. split; [|exact Hb].
  intros c u H. apply (Hf c (u ++ r)%string). rewrite Hr, H. reflexivity.
Qed.

Lemma no_proxy_iff : forall h np,
  should_use_proxy (Some h) np = false <-> exists l e, entries np l /\ In e l /\ trimmed e h.
Proof.
  intros h np. unfold should_use_proxy. rewrite negb_false_iff, existsb_exists. split.
  - intros (x & Hx & E). apply String.eqb_eq in E. subst x. apply in_map_iff in Hx.
    destruct Hx as (e & <- & He). exists (py_split "," np), e.
    split; [apply entries_split|]. split; [exact He|apply strip_trimmed].
  - intros (l & e & Hl & He & Ht). exists h. split; [|apply String.eqb_refl].
    apply in_map_iff. exists e. split; [apply trimmed_strip, Ht|].
    rewrite (entries_unique l np Hl). exact He.
Qed.

(** ** Qualified names *)
Lemma upto_none : forall s, has_char close_brace s = false -> upto_brace s = None.
Proof.
  induction s as [|c s IH]; intros H; [reflexivity|]. cbn [has_char] in H. apply orb_false_iff in H.
  destruct H as [Hc H]. cbn [upto_brace]. rewrite (IH H), (Ascii.eqb_sym c close_brace), Hc.
  destruct (Ascii.eqb c newline); reflexivity.
Qed.

Lemma search_none : forall s, has_char close_brace s = false -> search_ns s = None.
Proof.
  induction s as [|c s IH]; intros H; [reflexivity|]. cbn [has_char] in H. apply orb_false_iff in H.
  destruct H as [Hc H]. cbn [search_ns]. rewrite (IH H).
  destruct (Ascii.eqb c open_brace); [|reflexivity].
  destruct s as [|d s]; [reflexivity|]. cbn [dot_plus]. cbn [has_char] in H. apply orb_false_iff in H.
  rewrite (upto_none s) by apply H. destruct (Ascii.eqb d newline); reflexivity.
Qed.

Lemma upto_some : forall u v, has_char newline u = false -> has_char close_brace v = false ->
  upto_brace (u ++ String close_brace v) = Some u.
Proof.
  induction u as [|c u IH]; intros v Hu Hv; cbn [append upto_brace].
  - rewrite (upto_none v Hv). reflexivity.
  - cbn [has_char] in Hu. apply orb_false_iff in Hu. destruct Hu as [Hc Hu].
    rewrite Ascii.eqb_sym, Hc, (IH v Hu Hv). reflexivity.
Qed.

Lemma get_ns_of : forall ns name, has_char newline ns = false -> has_char close_brace name = false ->
  get_ns (String open_brace (ns ++ String close_brace name)) = ns.
Proof.
  intros ns name Hn Hc. unfold get_ns. cbn [search_ns]. rewrite Ascii.eqb_refl.
  destruct ns as [|c ns]; cbn [append dot_plus].
  - rewrite (upto_none name Hc). cbn [search_ns]. rewrite (search_none name Hc). reflexivity.
  - cbn [has_char] in Hn. apply orb_false_iff in Hn. destruct Hn as [Hn1 Hn2].
    rewrite Ascii.eqb_sym, Hn1, (upto_some ns name Hn2 Hc). reflexivity.
Qed.

Lemma after_none : forall s, after_brace s = None <-> has_char close_brace s = false.
Proof.
  induction s as [|c s IH]; cbn [after_brace has_char]; [tauto|].
  rewrite (Ascii.eqb_sym close_brace c).
  destruct (after_brace s) as [t|].
  - split; [discriminate|]. intros H. apply orb_false_iff in H. destruct H as [_ H]. apply IH in H. discriminate.
  - destruct IH as [IH _]. rewrite (IH eq_refl), orb_false_r.
    destruct (Ascii.eqb c close_brace); split; congruence.
Qed.

Lemma after_some : forall s t, after_brace s = Some t ->
  has_char close_brace t = false /\ exists a, s = (a ++ String close_brace t)%string.
Proof.
  induction s as [|c s IH]; intros t; cbn [after_brace]; [discriminate|].
  destruct (after_brace s) as [t'|] eqn:E.
  - intros H. injection H as <-. destruct (IH t' eq_refl) as (H1 & a & ->). split; [exact H1|].
    exists (String c a). reflexivity.
  - destruct (Ascii.eqb c close_brace) eqn:Ec; [|discriminate]. intros H. injection H as <-.
    apply Ascii.eqb_eq in Ec. subst c. split; [apply after_none, E|]. exists "". reflexivity.
Qed.

Lemma after_app : forall a t, has_char close_brace t = false ->
  after_brace (a ++ String close_brace t) = Some t.
Proof.
  induction a as [|c a IH]; intros t H; cbn [append after_brace].
  - apply after_none in H. rewrite H. reflexivity.
  - rewrite (IH t H). reflexivity.
Qed.

Lemma local_iff : forall s n,
  get_local_part s = n <->
  has_char close_brace n = false /\ (s = n \/ exists a, s = (a ++ String close_brace n)%string).
Proof.
  intros s n. unfold get_local_part. split.
  - destruct (after_brace s) as [t|] eqn:E; intros <-.
    + destruct (after_some s t E) as [H1 H2]. split; [exact H1|right; exact H2].
    + split; [apply after_none, E|left; reflexivity].
  - intros [Hn [->|(a & ->)]].
    + apply after_none in Hn. rewrite Hn. reflexivity.
    + rewrite after_app by exact Hn. reflexivity.
Qed.

(** ** URLs *)
Lemma ends_slash : forall b, b <> "" ->
  ends_with_slash b = String.eqb (String.substring (String.length b - 1) 1 b) "/".
Proof.
  induction b as [|c b IH]; intros H; [contradiction|]. destruct b as [|d b].
  - cbn. destruct (Ascii.eqb c "/") eqn:E.
    + apply Ascii.eqb_eq in E. subst c. reflexivity.
    + destruct (String.eqb (String c "") "/") eqn:E2; [|reflexivity].
      apply String.eqb_eq in E2. injection E2 as ->. discriminate.
  - change (ends_with_slash (String c (String d b))) with (ends_with_slash (String d b)).
    rewrite IH by discriminate. cbn [String.length Nat.sub]. rewrite Nat.sub_0_r. reflexivity.
Qed.

Lemma path_join_rel : forall b p, String.prefix "/" p = false -> path_join (Some b) p = Ok (under b p).
Proof.
  intros b p H. unfold path_join, startswith, under. rewrite H.
  destruct (String.eqb b "") eqn:E.
  - apply String.eqb_eq in E. subst b. reflexivity.
  - cbn [orb]. rewrite ends_slash by (intros ->; discriminate).
    destruct (String.eqb _ "/"); reflexivity.
Qed.

Lemma make_url_spec : forall base r u rel, meaning r u rel ->
  make_url base r =
  if rel then match base with
              | None => Raise ETypeError
              | Some b => if String.prefix "/" u then Ok ("file://" ++ u)%string
                          else Ok ("file://" ++ under b u)%string
              end
  else Ok u.
Proof.
  intros base r u rel H. destruct H as [r|r|r|r|r|p|p H1 H2|p H1 H2].
  - unfold make_url, startswith. cbn [existsb]. rewrite prefix_app. reflexivity.
  - unfold make_url, startswith. cbn [existsb]. rewrite prefix_app, !orb_true_r. reflexivity.
  - unfold make_url, startswith. cbn [existsb]. rewrite prefix_app, !orb_true_r. reflexivity.
  - unfold make_url. change ("file:///" ++ r)%string with ("file://" ++ ("/" ++ r))%string.
    unfold startswith. rewrite prefix_app. cbv zeta. rewrite str_drop_app, prefix_app. reflexivity.
  - unfold make_url, startswith. rewrite prefix_app. reflexivity.
  - unfold make_url. change ("file://./" ++ p)%string with ("file://" ++ ("./" ++ p))%string.
    unfold startswith. rewrite prefix_app. cbv zeta. rewrite str_drop_app, prefix_app, str_drop_app.
    destruct base as [b|]; [|reflexivity]. destruct (String.prefix "/" p) eqn:E.
    + unfold path_join, startswith. rewrite E. reflexivity.
    + rewrite (path_join_rel b p E). reflexivity.
  - unfold make_url, startswith. rewrite prefix_app. cbv zeta. rewrite str_drop_app, H2, H1. cbn [negb].
    destruct base as [b|]; [|reflexivity]. rewrite (path_join_rel b p H1). reflexivity.
  - unfold make_url, startswith. rewrite (H2 "file://") by (left; reflexivity).
    replace (existsb _ _) with false.
    + rewrite H1. destruct base as [b|]; [|reflexivity]. rewrite (path_join_rel b p H1). reflexivity.
    + symmetry. apply not_true_is_false. intros E. apply existsb_exists in E.
      destruct E as (x & Hx & E). rewrite H2 in E by (right; exact Hx). discriminate.
Qed.

Lemma meaning_total : forall r, exists u rel, meaning r u rel.
Proof.
  intros r. destruct (String.prefix "file://" r) eqn:E1.
  - apply prefix_true_iff in E1. destruct E1 as [p ->].
    destruct (String.prefix "./" p) eqn:E2.
    { apply prefix_true_iff in E2. destruct E2 as [q ->]. exists q, true. apply (mean_file_dot q). }
    destruct (String.prefix "/" p) eqn:E3.
    { apply prefix_true_iff in E3. destruct E3 as [q ->]. exists ("file:///" ++ q)%string, false. apply (mean_file_abs q). }
    exists p, true. apply mean_file_rel; assumption.
  - destruct (String.prefix "ftp://" r) eqn:E2.
    { apply prefix_true_iff in E2. destruct E2 as [q ->]. eexists _, _. apply mean_ftp. }
    destruct (String.prefix "http://" r) eqn:E3.
    { apply prefix_true_iff in E3. destruct E3 as [q ->]. eexists _, _. apply mean_http. }
    destruct (String.prefix "https://" r) eqn:E4.
    { apply prefix_true_iff in E4. destruct E4 as [q ->]. eexists _, _. apply mean_https. }
    destruct (String.prefix "/" r) eqn:E5.
    { apply prefix_true_iff in E5. destruct E5 as [q ->]. eexists _, _. apply mean_abs. }
    exists r, true. apply mean_rel; [exact E5|].
    intros s [<-|[<-|[<-|[<-|[]]]]]; assumption.
Qed.

Lemma prefix_app_l : forall a b c, String.prefix a b = true -> String.prefix a (b ++ c) = true.
Proof.
  intros a b c H. apply prefix_true_iff in H. destruct H as [t ->]. rewrite app_assoc_s. apply prefix_app.
Qed.

Lemma under_prefix : forall b p, String.prefix b (under b p) = true.
Proof.
  intros b p. unfold under. destruct (String.eqb b "") eqn:E.
  - apply String.eqb_eq in E. subst b. destruct p; reflexivity.
  - destruct (String.eqb _ "/"); apply prefix_app.
Qed.

Lemma prefix_app_r : forall a b c, String.prefix (a ++ b) (a ++ c) = String.prefix b c.
Proof.
  induction a as [|x a IH]; intros b c; cbn [append]; [reflexivity|]. cbn [String.prefix].
  destruct (ascii_dec x x); [apply IH|contradiction].
Qed.

(** ** Registries *)
Lemma rg_run_snoc : forall ops o g, rg_run (ops ++ [o]) g = snd (rg_step (rg_run ops g) o).
Proof. intros. unfold rg_run. rewrite fold_left_app. reflexivity. Qed.

Lemma okey_eq : forall a b : option string, opt_eqb String.eqb a b = true <-> a = b.
Proof.
  intros [a|] [b|]; simpl; try (split; congruence).
  rewrite String.eqb_eq. split; congruence.
Qed.

Lemma okey_sym : forall a b : option string, opt_eqb String.eqb a b = opt_eqb String.eqb b a.
Proof. intros [a|] [b|]; simpl; try reflexivity. apply String.eqb_sym. Qed.

Lemma key_get_app : forall k d d',
  key_get k (d ++ d') = match key_get k d with Some p => Some p | None => key_get k d' end.
Proof.
  intros k. induction d as [|[k' p] d IH]; intros d'; cbn [app key_get]; [reflexivity|].
  destruct (opt_eqb String.eqb k k'); [reflexivity|apply IH].
Qed.

Lemma find_app : forall A (f : A -> bool) l l',
  find f (l ++ l') = match find f l with Some x => Some x | None => find f l' end.
Proof.
  intros A f. induction l as [|x l IH]; intros l'; cbn [app find]; [reflexivity|].
  destruct (f x); [reflexivity|apply IH].
Qed.

Lemma rg_content : forall ops k,
  let g := rg_run ops registry0 in
  key_get k (rg_policies g) = first_with k (policies_offered ops) /\
  key_get k (rg_sets g) = first_with k (sets_offered ops).
Proof.
  induction ops as [|o ops IH] using rev_ind; intros k; cbv zeta in *; [split; reflexivity|].
  rewrite rg_run_snoc. unfold policies_offered, sets_offered, first_with in *.
  rewrite !flat_map_app, !find_app. cbn [flat_map]. rewrite !app_nil_r.
  destruct (IH k) as [IH1 IH2]. pose proof (fun k => proj1 (IH k)) as IHp.
  pose proof (fun k => proj2 (IH k)) as IHs. clear IH.
  set (g := rg_run ops registry0) in *.
  match goal with |- _ = match ?a with _ => _ end /\ _ = match ?b with _ => _ end =>
    set (F1 := a) in *; set (F2 := b) in * end.
  destruct o as [p|p|r|r]; cbn [rg_step].
  - destruct p as [m t a rs|m t a cs]; cbn [add_policy].
    + unfold key_mem. destruct (key_get (pm_id m) (rg_policies g)) as [q|] eqn:E; cbn [snd rg_policies rg_sets].
      * rewrite IH1, IH2. cbn [find id_of]. split; [|destruct F2; reflexivity].
        destruct F1; [reflexivity|].
        destruct (opt_eqb String.eqb (pm_id m) k) eqn:Ek; [|reflexivity].
        apply okey_eq in Ek. subst k. congruence.
      * rewrite key_get_app, IH1, IH2. cbn [key_get find id_of]. rewrite (okey_sym k).
        split; [reflexivity|destruct F2; reflexivity].
    + cbn [snd find]. rewrite IH1, IH2. split; [destruct F1|destruct F2]; reflexivity.
  - destruct p as [m t a rs|m t a cs]; cbn [add_policy_set].
    + cbn [snd find]. rewrite IH1, IH2. split; [destruct F1|destruct F2]; reflexivity.
    + unfold key_mem. destruct (key_get (pm_id m) (rg_sets g)) as [q|] eqn:E; cbn [snd rg_policies rg_sets].
      * rewrite IH1, IH2. cbn [find id_of]. split; [destruct F1; reflexivity|].
        destruct F2; [reflexivity|].
        destruct (opt_eqb String.eqb (pm_id m) k) eqn:Ek; [|reflexivity].
        apply okey_eq in Ek. subst k. congruence.
      * rewrite key_get_app, IH1, IH2. cbn [key_get find id_of]. rewrite (okey_sym k).
        split; [destruct F1; reflexivity|reflexivity].
  - replace (snd match local_find_policy g r with Ok _ => (Ok tt, g) | Raise e => (Raise e, g) end) with g
      by (destruct (local_find_policy g r); reflexivity).
    cbn [find]. rewrite IH1, IH2. split; [destruct F1|destruct F2]; reflexivity.
  - replace (snd match local_find_policy_set g r with Ok _ => (Ok tt, g) | Raise e => (Raise e, g) end) with g
      by (destruct (local_find_policy_set g r); reflexivity).
    cbn [find]. rewrite IH1, IH2. split; [destruct F1|destruct F2]; reflexivity.
Qed.

Lemma key_get_in : forall k d p, key_get k d = Some p -> In (k, p) d.
Proof.
  intros k. induction d as [|[k' p'] d IH]; intros p; cbn [key_get]; [discriminate|].
  destruct (opt_eqb String.eqb k k') eqn:E.
  - apply okey_eq in E. subst k'. intros H. injection H as <-. left. reflexivity.
  - intros H. right. apply IH, H.
Qed.
