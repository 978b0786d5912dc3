(** Facts about fetching by URL. *)
From Verif Require Import Base Strings StringFacts Text SpecText TextFacts Fetch SpecFetch.
From Coq Require Import Lia.
Open Scope string_scope.

(** ** Characters of strings *)
Lemma has_app : forall c a b, has_char c (a ++ b) = has_char c a || has_char c b.
Proof.
  intros c a b. induction a as [|d a IH]; [reflexivity|]. cbn [has_char append]. rewrite IH.
  destruct (Ascii.eqb c d); reflexivity.
Qed.
Lemma str_app_assoc : forall a b c : string, (a ++ b) ++ c = a ++ (b ++ c).
Proof. intros a b c. induction a as [|d a IH]; cbn; [reflexivity|]. rewrite IH. reflexivity. Qed.
Lemma str_app_nil : forall a : string, a ++ "" = a.
Proof. intros a. induction a as [|d a IH]; cbn; [reflexivity|]. rewrite IH. reflexivity. Qed.

Lemma lacks_char : forall bad s c, lacks bad s -> has_char c bad = true -> has_char c s = false.
Proof. intros bad s c H Hc. exact (H c Hc). Qed.

Lemma has_head : forall c s, has_char c (String c s) = true.
Proof. intros c s. cbn. rewrite Ascii.eqb_refl. reflexivity. Qed.
Lemma has_cons : forall c d s, has_char c (String d s) = (Ascii.eqb c d || has_char c s)%bool.
Proof. reflexivity. Qed.

Lemma partition_found : forall c a b, has_char c a = false -> partition c (a ++ String c b) = (a, true, b).
Proof.
  intros c a b. induction a as [|d a IH]; intros H; cbn [append partition].
  - rewrite Ascii.eqb_refl. reflexivity.
  - cbn [has_char] in H. apply orb_false_elim in H. destruct H as [H1 H2].
    rewrite Ascii.eqb_sym in H1. rewrite H1, (IH H2). reflexivity.
Qed.
Lemma partition_missing : forall c a, has_char c a = false -> partition c a = (a, false, "").
Proof.
  intros c a. induction a as [|d a IH]; intros H; cbn [partition]; [reflexivity|].
  cbn [has_char] in H. apply orb_false_elim in H. destruct H as [H1 H2].
  rewrite Ascii.eqb_sym in H1. rewrite H1, (IH H2). reflexivity.
Qed.
Lemma after_last_none : forall c a, has_char c a = false -> after_last c a = a.
Proof.
  intros c a H. destruct a as [|d a]; [reflexivity|]. cbn [after_last]. cbn [has_char] in H.
  apply orb_false_elim in H. destruct H as [H1 H2]. rewrite H2. rewrite Ascii.eqb_sym in H1. rewrite H1.
  reflexivity.
Qed.
Lemma after_last_found : forall c a b, has_char c b = false -> after_last c (a ++ String c b) = b.
Proof.
  intros c a b Hb. induction a as [|d a IH]; cbn [append after_last].
  - rewrite Hb, Ascii.eqb_refl. reflexivity.
  - rewrite has_app, has_head, orb_true_r. exact IH.
Qed.
Lemma upto_path_stop : forall a b, lacks "/?#" a ->
  (b = "" \/ exists c r, b = String c r /\ has_char c "/?#" = true) -> upto_path (a ++ b) = a.
Proof.
  intros a b Ha Hb. induction a as [|d a IH]; cbn [append].
  - destruct Hb as [->|(c & r & -> & Hc)]; [reflexivity|]. cbn [upto_path]. cbn in Hc.
    rewrite orb_false_r in Hc.
    destruct (Ascii.eqb c "/"); [reflexivity|]. destruct (Ascii.eqb c "?"); [reflexivity|].
    cbn in Hc |- *. rewrite Hc. reflexivity.
  - cbn [upto_path].
    assert (Hd : forall x, has_char x "/?#" = true -> Ascii.eqb d x = false).
    { intros x Hx. specialize (Ha x Hx). cbn [has_char] in Ha. apply orb_false_elim in Ha.
      rewrite Ascii.eqb_sym. apply Ha. }
    rewrite (Hd "/"%char), (Hd "?"%char), (Hd "#"%char) by reflexivity. cbn [orb]. rewrite IH; [reflexivity|].
    intros x Hx. specialize (Ha x Hx). cbn [has_char] in Ha. apply orb_false_elim in Ha. apply Ha.
Qed.

Definition unsafe_free (s : string) : Prop := lacks tab_cr_lf s.
Lemma is_unsafe_in : forall c, is_unsafe c = has_char c tab_cr_lf.
Proof.
  intros c. destruct c as [b0 b1 b2 b3 b4 b5 b6 b7].
  destruct b0, b1, b2, b3, b4, b5, b6, b7; reflexivity.
Qed.
Lemma filter_safe : forall s, unsafe_free s -> str_filter (fun c => negb (is_unsafe c)) s = s.
Proof.
  intros s. induction s as [|d s IH]; intros H; [reflexivity|]. cbn [str_filter].
  assert (Hd : is_unsafe d = false).
  { rewrite is_unsafe_in. destruct (has_char d tab_cr_lf) eqn:E; [|reflexivity].
    specialize (H d E). rewrite has_head in H. discriminate H. }
  rewrite Hd. cbn [negb]. rewrite IH; [reflexivity|].
  intros c Hc. specialize (H c Hc). cbn [has_char] in H. apply orb_false_elim in H. apply H.
Qed.
Lemma filter_app : forall k a b, str_filter k (a ++ b) = str_filter k a ++ str_filter k b.
Proof.
  intros k a b. induction a as [|d a IH]; [reflexivity|]. cbn [append str_filter]. destruct (k d); [|exact IH].
  cbn [append]. rewrite IH. reflexivity.
Qed.

Lemma letter_alpha : forall c, letter c -> is_alpha c = true.
Proof.
  intros c (k & Hk & H). do 26 (destruct k as [|k]; [destruct H as [->| ->]; reflexivity|]). lia.
Qed.
Lemma digit_scheme : forall c, digit c -> is_scheme_char c = true.
Proof.
  intros c (k & Hk & H). do 10 (destruct k as [|k]; [rewrite H; reflexivity|]). lia.
Qed.
Lemma plus_scheme : forall c, has_char c "+-." = true -> is_scheme_char c = true.
Proof.
  intros c H. unfold is_scheme_char. cbn in H. rewrite orb_false_r in H.
  destruct (Ascii.eqb c "+"); [rewrite !orb_true_r; reflexivity|].
  destruct (Ascii.eqb c "-"); [rewrite !orb_true_r; reflexivity|].
  cbn in H. rewrite H, !orb_true_r. reflexivity.
Qed.
Lemma scheme_all : forall s,
  (forall c, has_char c s = true -> letter c \/ digit c \/ has_char c "+-." = true) ->
  str_all is_scheme_char s = true.
Proof.
  intros s. induction s as [|d s IH]; intros H; [reflexivity|]. cbn [str_all].
  rewrite IH.
  - rewrite andb_true_r. destruct (H d (has_head d s)) as [Hl|[Hd|Hp]].
    + unfold is_scheme_char. rewrite (letter_alpha d Hl). reflexivity.
    + apply digit_scheme, Hd.
    + apply plus_scheme, Hp.
  - intros c Hc. apply H. cbn [has_char]. rewrite Hc. apply orb_true_r.
Qed.
Lemma scheme_char_not : forall c, is_scheme_char c = true ->
  Ascii.eqb c ":" = false /\ is_unsafe c = false /\ Nat.leb (code c) 32 = false.
Proof.
  intros c. destruct c as [b0 b1 b2 b3 b4 b5 b6 b7].
  destruct b0, b1, b2, b3, b4, b5, b6, b7; vm_compute; intros H; try discriminate H; auto.
Qed.
Lemma scheme_plain : forall s, str_all is_scheme_char s = true -> has_char ":" s = false /\ unsafe_free s.
Proof.
  intros s. induction s as [|d s IH]; intros H; [split; [reflexivity|intros c _; reflexivity]|].
  cbn [str_all] in H. apply andb_prop in H. destruct H as [Hd Hs]. destruct (IH Hs) as [H1 H2].
  destruct (scheme_char_not d Hd) as (Hc & Hu & _). split.
  - cbn [has_char]. rewrite Ascii.eqb_sym, Hc. exact H1.
  - intros c Hcb. cbn [has_char]. rewrite (H2 c Hcb), orb_false_r.
    destruct (Ascii.eqb_spec c d) as [->|]; [|reflexivity]. rewrite is_unsafe_in, Hcb in Hu. discriminate Hu.
Qed.

(** ** The host of a URL *)
Definition authority (u : url_parts) : string :=
  match u_user u with Some s => s ++ "@" | None => "" end ++ host_text (u_host u) ++
  match u_port u with Some s => ":" ++ s | None => "" end.

Lemma lacks_app : forall bad a b, lacks bad a -> lacks bad b -> lacks bad (a ++ b).
Proof. intros bad a b Ha Hb c Hc. rewrite has_app, (Ha c Hc), (Hb c Hc). reflexivity. Qed.
Lemma lacks_sub : forall bad bad' s, lacks bad s -> (forall c, has_char c bad' = true -> has_char c bad = true) ->
  lacks bad' s.
Proof. intros bad bad' s H Hb c Hc. apply H, Hb, Hc. Qed.
Lemma has_or : forall c a, has_char c a = true -> forall b, has_char c (a ++ b) = true /\ has_char c (b ++ a) = true.
Proof. intros c a H b. rewrite !has_app, H. split; [reflexivity|apply orb_true_r]. Qed.

Ltac subchars := let c := fresh in let H := fresh in intros c H; rewrite ?has_app in *; cbn [has_char] in *;
  repeat match goal with
  | H : (_ || _)%bool = true |- _ => apply orb_prop in H; destruct H as [H|H]
  end; try discriminate; try (rewrite H); rewrite ?orb_true_r, ?orb_true_l; try reflexivity.

Lemma authority_chars : forall u, url_ok u -> lacks ("/?#" ++ tab_cr_lf) (authority u).
Proof.
  intros u (_ & Hu & Hh & Hp & _). unfold authority. apply lacks_app; [|apply lacks_app].
  - destruct (u_user u) as [s|]; [|intros c _; reflexivity]. apply lacks_app.
    + apply (lacks_sub _ _ _ (Hu s eq_refl)). unfold tab_cr_lf. subchars.
    + unfold tab_cr_lf. intros c Hc. destruct c as [b0 b1 b2 b3 b4 b5 b6 b7].
      destruct b0, b1, b2, b3, b4, b5, b6, b7; vm_compute in Hc |- *; congruence.
  - destruct (u_host u) as [n|a]; cbn [host_text host_ok] in *.
    + apply (lacks_sub _ _ _ (proj2 Hh)). unfold tab_cr_lf. subchars.
    + apply lacks_app; [|apply lacks_app].
      * unfold tab_cr_lf. intros c Hc. destruct c as [b0 b1 b2 b3 b4 b5 b6 b7].
        destruct b0, b1, b2, b3, b4, b5, b6, b7; vm_compute in Hc |- *; congruence.
      * apply (lacks_sub _ _ _ (proj2 Hh)). unfold tab_cr_lf. subchars.
      * unfold tab_cr_lf. intros c Hc. destruct c as [b0 b1 b2 b3 b4 b5 b6 b7].
        destruct b0, b1, b2, b3, b4, b5, b6, b7; vm_compute in Hc |- *; congruence.
  - destruct (u_port u) as [s|]; [|intros c _; reflexivity]. apply lacks_app.
    + unfold tab_cr_lf. intros c Hc. destruct c as [b0 b1 b2 b3 b4 b5 b6 b7].
      destruct b0, b1, b2, b3, b4, b5, b6, b7; vm_compute in Hc |- *; congruence.
    + apply (lacks_sub _ _ _ (Hp s eq_refl)). unfold tab_cr_lf. subchars.
Qed.

Lemma prefix_nil : forall s, String.prefix "" s = true.
Proof. intros [|c s]; reflexivity. Qed.

Lemma netloc_split : forall scheme auth rest, scheme_ok scheme -> lacks ("/?#" ++ tab_cr_lf) auth ->
  (rest = "" \/ exists c r, rest = String c r /\ has_char c "/?#" = true) ->
  netloc_of (scheme ++ "://" ++ auth ++ rest) = auth.
Proof.
  intros scheme auth rest ((c0 & s0 & Hs & Hc0) & Hsch) Hchars Hrest.
  assert (Hall := scheme_all _ Hsch). destruct (scheme_plain _ Hall) as [Hcolon Hsafe].
  unfold netloc_of. change ("://" ++ auth ++ rest) with (String ":" ("//" ++ auth ++ rest)).
  assert (Hl : lstrip_chars (fun c => Nat.leb (code c) 32) (scheme ++ String ":" ("//" ++ auth ++ rest))
               = scheme ++ String ":" ("//" ++ auth ++ rest)).
  { rewrite Hs. cbn [append lstrip_chars]. rewrite Hs in Hall. cbn [str_all] in Hall.
    apply andb_prop in Hall. destruct (scheme_char_not c0 (proj1 Hall)) as (_ & _ & ->). reflexivity. }
  rewrite Hl. rewrite filter_app, (filter_safe _ Hsafe).
  assert (Hf : str_filter (fun c => negb (is_unsafe c)) (String ":" ("//" ++ auth ++ rest)) =
               String ":" ("//" ++ auth ++ str_filter (fun c => negb (is_unsafe c)) (rest))).
  { cbn [append str_filter]. change (negb (is_unsafe ":")) with true. change (negb (is_unsafe "/")) with true.
    cbn iota. rewrite filter_app, (filter_safe (auth)); [reflexivity|].
    apply (lacks_sub _ _ _ Hchars). intros c Hc. apply (has_or c _ Hc "/?#"). }
  rewrite Hf.
  assert (Ha : forall x, after_scheme (scheme ++ String ":" x) = x).
  { intros x. unfold after_scheme. rewrite (partition_found _ _ _ Hcolon). rewrite Hs in *.
    rewrite Hall, (letter_alpha c0 Hc0). reflexivity. }
  rewrite Ha. unfold startswith. cbn [append String.prefix].
  destruct (ascii_dec "/" "/") as [_|n]; [|congruence].
  cbn [str_drop]. rewrite prefix_nil.
  apply upto_path_stop.
  - apply (lacks_sub _ _ _ Hchars). intros c Hc. apply (has_or c _ Hc tab_cr_lf).
  - destruct Hrest as [->|(c & r & -> & Hc)]; [left; reflexivity|]. right.
    cbn [str_filter]. assert (Hu : is_unsafe c = false).
    { cbn in Hc. rewrite orb_false_r in Hc. destruct (Ascii.eqb_spec c "/") as [->|]; [reflexivity|].
      destruct (Ascii.eqb_spec c "?") as [->|]; [reflexivity|].
      destruct (Ascii.eqb_spec c "#") as [->|]; [reflexivity|discriminate Hc]. }
    rewrite Hu. cbn [negb]. eexists _, _. split; [reflexivity|exact Hc].
Qed.

Lemma netloc_authority : forall u, url_ok u -> netloc_of (url_text u) = authority u.
Proof.
  intros u Hok. pose proof (authority_chars u Hok) as Hchars.
  assert (Ht : url_text u = u_scheme u ++ "://" ++ authority u ++ u_rest u).
  { unfold url_text, authority. rewrite !str_app_assoc. reflexivity. }
  rewrite Ht. apply netloc_split; [apply Hok|exact Hchars|apply Hok].
Qed.
Lemma netloc_none : forall scheme r, scheme_ok scheme -> lacks tab_cr_lf r -> String.prefix "//" r = false ->
  netloc_of (scheme ++ ":" ++ r) = "".
Proof.
  intros scheme r ((c0 & s0 & Hs & Hc0) & Hsch) Hr Hp.
  assert (Hall := scheme_all _ Hsch). destruct (scheme_plain _ Hall) as [Hcolon Hsafe].
  unfold netloc_of. change (":" ++ r) with (String ":" r).
  assert (Hl : lstrip_chars (fun c => Nat.leb (code c) 32) (scheme ++ String ":" r) = scheme ++ String ":" r).
  { rewrite Hs. cbn [append lstrip_chars]. rewrite Hs in Hall. cbn [str_all] in Hall.
    apply andb_prop in Hall. destruct (scheme_char_not c0 (proj1 Hall)) as (_ & _ & ->). reflexivity. }
  rewrite Hl, filter_app, (filter_safe _ Hsafe).
  assert (Hf : str_filter (fun c => negb (is_unsafe c)) (String ":" r) = String ":" r).
  { cbn [str_filter]. change (negb (is_unsafe ":")) with true. cbn iota. rewrite (filter_safe r Hr). reflexivity. }
  rewrite Hf. unfold after_scheme. rewrite (partition_found _ _ _ Hcolon). rewrite Hs in *.
  rewrite Hall, (letter_alpha c0 Hc0). cbn [andb]. unfold startswith. rewrite Hp. reflexivity.
Qed.

Lemma lower_nonempty : forall s, s <> "" -> py_lower s <> "".
Proof. intros [|c s] H; [congruence|discriminate]. Qed.

Lemma hostname_authority : forall ip_ok u, url_ok u ->
  (forall a, u_host u = Address a -> ip_ok a = true) ->
  url_hostname ip_ok (url_text u) = Ok (Some (py_lower (host_name (u_host u)))).
Proof.
  intros ip_ok u Hok Hip. unfold url_hostname. rewrite (netloc_authority u Hok).
  destruct Hok as (_ & Hu & Hh & Hp & _).
  assert (Hul : forall c, has_char c "[]" = true ->
    has_char c (match u_user u with Some s => s ++ "@" | None => "" end) = false).
  { intros c Hc. destruct (u_user u) as [s|]; [|reflexivity]. rewrite has_app.
    rewrite (Hu s eq_refl c); [|rewrite has_app; apply orb_true_iff; left; revert Hc; cbn [has_char];
      rewrite !orb_true_iff; tauto].
    cbn. rewrite orb_false_r. destruct (Ascii.eqb_spec c "@") as [->|]; [discriminate Hc|reflexivity]. }
  assert (Hpl : forall c, has_char c "[]@" = true ->
    has_char c (match u_port u with Some s => ":" ++ s | None => "" end) = false).
  { intros c Hc. destruct (u_port u) as [s|]; [|reflexivity]. rewrite has_app.
    rewrite (Hp s eq_refl c); [|rewrite has_app; apply orb_true_iff; left; revert Hc; cbn [has_char];
      rewrite !orb_true_iff; tauto].
    cbn. rewrite !orb_false_r. destruct (Ascii.eqb_spec c ":") as [->|]; [discriminate Hc|reflexivity]. }
  (* after the user *)
  assert (Hal : has_char "@" (host_text (u_host u)) = false ->
    after_last "@" (authority u) =
      host_text (u_host u) ++ match u_port u with Some s => ":" ++ s | None => "" end).
  { intros Hn. assert (Hb : has_char "@" (host_text (u_host u) ++ match u_port u with Some s => ":" ++ s | None => "" end) = false).
    { rewrite has_app, Hn, (Hpl "@"%char eq_refl). reflexivity. }
    unfold authority. destruct (u_user u) as [s|].
    - rewrite str_app_assoc. exact (after_last_found _ _ _ Hb).
    - exact (after_last_none _ _ Hb). }
  destruct (u_host u) as [n|a] eqn:Eh; cbn [host_ok host_text host_name] in *; destruct Hh as [Hne Hl].
  - assert (Hat : has_char "@" n = false) by (apply Hl; reflexivity).
    assert (H1 : has_char "[" (authority u) = false).
    { unfold authority. rewrite Eh. cbn [host_text]. rewrite !has_app, (Hul "["%char eq_refl), (Hpl "["%char eq_refl), (Hl "["%char eq_refl). reflexivity. }
    assert (H2 : has_char "]" (authority u) = false).
    { unfold authority. rewrite Eh. cbn [host_text]. rewrite !has_app, (Hul "]"%char eq_refl), (Hpl "]"%char eq_refl), (Hl "]"%char eq_refl). reflexivity. }
    rewrite H1, H2. cbn [xorb andb]. rewrite (partition_missing _ _ H1). cbn [partition].
    rewrite (Hal Hat). rewrite partition_missing by (rewrite has_app, (Hl "["%char eq_refl), (Hpl "["%char eq_refl); reflexivity).
    assert (Hpc : exists f r, partition ":" (n ++ match u_port u with Some s => ":" ++ s | None => "" end) = (n, f, r)).
    { destruct (u_port u) as [s|]; [exists true, s|exists false, ""].
      - apply partition_found, Hl. reflexivity.
      - rewrite str_app_nil. apply partition_missing, Hl. reflexivity. }
    destruct Hpc as (f & r & ->). destruct n as [|c n]; [congruence|].
    rewrite partition_missing by (apply Hl; reflexivity). rewrite !str_app_nil. reflexivity.
  - assert (Hat : has_char "@" ("[" ++ a ++ "]") = false).
    { cbn [append]. rewrite has_cons, has_app, (Hl "@"%char eq_refl). reflexivity. }
    assert (H1 : has_char "[" (authority u) = true).
    { unfold authority. rewrite Eh. cbn [host_text append]. rewrite !has_app. rewrite has_cons. cbn. rewrite orb_true_r. reflexivity. }
    assert (H2 : has_char "]" (authority u) = true).
    { unfold authority. rewrite Eh. cbn [host_text append]. rewrite !has_app, has_cons, !has_app.
      change (has_char "]" "]") with true. rewrite orb_true_r. cbn [orb]. rewrite ?orb_true_r. cbn [orb]. reflexivity. }
    rewrite H1, H2. cbn [xorb andb].
    assert (Hin : forall x, partition "]" (a ++ String "]" x) = (a, true, x)).
    { intros x. apply partition_found, Hl. reflexivity. }
    assert (Hau : authority u = match u_user u with Some s => s ++ "@" | None => "" end ++
                   String "[" (a ++ String "]" (match u_port u with Some s => ":" ++ s | None => "" end))).
    { unfold authority. rewrite Eh. cbn [host_text append]. rewrite str_app_assoc. reflexivity. }
    rewrite Hau at 1. rewrite (partition_found _ _ _ (Hul "["%char eq_refl)), Hin. rewrite (Hip a eq_refl). cbn [negb].
    rewrite (Hal Hat). cbn [append]. rewrite str_app_assoc. cbn [append].
    match goal with |- context [partition "[" (String "[" ?x)] =>
      change (partition "[" (String "[" x)) with ("", true, x) end. cbn iota beta.
    rewrite Hin. destruct a as [|c a]; [congruence|].
    rewrite partition_missing by (apply Hl; reflexivity). rewrite !str_app_nil. reflexivity.
Qed.

Lemma proxy_listed : forall no_proxy h,
  should_use_proxy (Some h) (match no_proxy with Some s => s | None => "" end) = false <->
  listed no_proxy h \/ (no_proxy = None /\ h = "").
Proof.
  intros np h. rewrite no_proxy_iff. unfold listed. split.
  - intros (l & e & Hl & He & Ht). destruct np as [s|]; [left; exists s, l, e; auto|right].
    split; [reflexivity|].
    assert (E : l = [""]).
    { rewrite <- (entries_unique l "" Hl). reflexivity. }
    subst l. destruct He as [<-|[]]. destruct Ht as (a & b & H & _).
    destruct a; [|discriminate H]. destruct h; [reflexivity|discriminate H].
  - intros [(s & l & e & -> & Hl & He & Ht)|[-> ->]]; [exists l, e; auto|].
    exists [""], "". split; [split; [discriminate|]; split; [reflexivity|]; intros e [<-|[]]; reflexivity|].
    split; [left; reflexivity|]. exists "", "". repeat split; try discriminate.
    intros c u H. destruct u; discriminate H.
Qed.

(** ** Responses *)
Section Live.
Variable ip_ok : string -> bool.
Variable opener : list (list handler * string) -> list handler -> string -> opened.

Lemma run_app_f : forall a b w, fop_run ip_ok opener (a ++ b)%list w = fop_run ip_ok opener b (fop_run ip_ok opener a w).
Proof. intros a. induction a as [|o a IH]; intros b w; [reflexivity|]. cbn [fop_run app]. apply IH. Qed.

(** What one call does. *)
Lemma open_cases : forall url (debug : bool) w,
  match url_hostname ip_ok url with
  | Raise e => open_url ip_ok opener url debug w = (GRaise e, w)
  | Ok h =>
      let hs := HttpHandler (if debug then 1 else 0) ::
                (if should_use_proxy h (match fw_no_proxy w with Some s => s | None => "" end)
                 then [] else [EmptyProxyHandler]) in
      exists live,
      snd (open_url ip_ok opener url debug w) =
        mkFetchw (fw_calls w ++ [(hs, url)])%list live (fw_no_proxy w) /\
      match opener (fw_calls w) hs url with
      | Response body => fst (open_url ip_ok opener url debug w) = Got (List.length (fw_calls w), body) /\
                         live = List.length (fw_calls w) :: fw_live w
      | HttpError text => fst (open_url ip_ok opener url debug w) = GPlain text /\ live = fw_live w
      | OpenError e => fst (open_url ip_ok opener url debug w) = GRaise e /\ live = fw_live w
      end
  end.
Proof.
  intros url debug w. unfold open_url. destruct (url_hostname ip_ok url) as [h|e]; [|reflexivity]. cbn zeta.
  destruct (should_use_proxy h _); cbn [app];
    destruct (opener _ _ _); cbn [fst snd]; eexists; (split; [reflexivity|]); split; reflexivity.
Qed.

Definition bounded (w : fetchw) : Prop := forall k, In k (fw_live w) -> k < List.length (fw_calls w).

Lemma step_cases : forall o w, bounded w ->
  let w' := fop_step ip_ok opener o w in
  bounded w' /\
  ((fw_calls w' = fw_calls w /\
    match o with
    | OpClose n => forall k, In k (fw_live w') <-> In k (fw_live w) /\ k <> n
    | _ => fw_live w' = fw_live w
    end) \/
   (exists hs url, fw_calls w' = (fw_calls w ++ [(hs, url)])%list /\ (forall n, o <> OpClose n) /\
    forall k, In k (fw_live w') <-> In k (fw_live w) \/
      k = List.length (fw_calls w) /\ exists body, opener (fw_calls w) hs url = Response body /\ leaves_open o body)).
Proof.
  intros o w Hb. cbn zeta. destruct o as [u d|u d|n|v]; cbn [fop_step].
  - pose proof (open_cases u d w) as H. unfold fetch_data.
    destruct (open_url ip_ok opener u d w) as [r w'] eqn:E. cbn [fst snd] in H.
    destruct (url_hostname ip_ok u) as [h|e].
    2: { injection H as -> ->. cbn [snd]. split; [exact Hb|]. left. split; reflexivity. }
    cbn zeta in H. destruct H as (live & -> & H). set (hs := _ :: _) in H.
    destruct (opener (fw_calls w) hs u) as [body|t|e] eqn:Eo; destruct H as [-> ->].
    + destruct body as [s|e]; cbn [snd close_response fw_calls fw_live].
      * assert (Hl : forall k, In k (filter (fun k => negb (Nat.eqb k (List.length (fw_calls w))))
                       (List.length (fw_calls w) :: fw_live w)) <-> In k (fw_live w)).
        { intros k. rewrite filter_In. split.
          - intros [[<-|Hk] Hn]; [|exact Hk]. rewrite Nat.eqb_refl in Hn. discriminate Hn.
          - intros Hk. split; [right; exact Hk|]. specialize (Hb k Hk).
            destruct (Nat.eqb_spec k (List.length (fw_calls w))); [lia|reflexivity]. }
        split.
        { intros k Hk. unfold close_response in *; cbn [fw_live fw_calls] in *. apply Hl, Hb in Hk. rewrite app_length. lia. }
        right. exists hs, u. split; [reflexivity|]. split; [discriminate|]. intros k. rewrite Hl. split; [tauto|].
        intros [Hk|(_ & body & Hbd & e & ->)]; [exact Hk|]. rewrite Eo in Hbd. discriminate Hbd.
      * split.
        { intros k Hk. unfold close_response in *; cbn [fw_live fw_calls] in *. rewrite app_length. cbn [List.length].
          destruct Hk as [<-|Hk]; [lia|]. specialize (Hb k Hk). lia. }
        right. exists hs, u. split; [reflexivity|]. split; [discriminate|]. intros k. cbn [In]. split.
        -- intros [<-|Hk]; [right|left; exact Hk]. split; [reflexivity|]. exists (Raise e). split; [exact Eo|].
           exists e. reflexivity.
        -- intros [Hk|(-> & _)]; [right; exact Hk|left; reflexivity].
    + cbn [snd fw_calls fw_live]. split.
      { intros k Hk. unfold close_response in *; cbn [fw_live fw_calls] in *. apply Hb in Hk. rewrite app_length. lia. }
      right. exists hs, u. split; [reflexivity|]. split; [discriminate|]. intros k. split; [tauto|].
      intros [Hk|(_ & body & Hbd & _)]; [exact Hk|]. rewrite Eo in Hbd. discriminate Hbd.
    + cbn [snd fw_calls fw_live]. split.
      { intros k Hk. unfold close_response in *; cbn [fw_live fw_calls] in *. apply Hb in Hk. rewrite app_length. lia. }
      right. exists hs, u. split; [reflexivity|]. split; [discriminate|]. intros k. split; [tauto|].
      intros [Hk|(_ & body & Hbd & _)]; [exact Hk|]. rewrite Eo in Hbd. discriminate Hbd.
  - pose proof (open_cases u d w) as H. unfold fetch_stream.
    destruct (open_url ip_ok opener u d w) as [r w'] eqn:E. cbn [fst snd] in H.
    destruct (url_hostname ip_ok u) as [h|e].
    2: { injection H as -> ->. cbn [snd]. split; [exact Hb|]. left. split; reflexivity. }
    cbn zeta in H. destruct H as (live & -> & H). set (hs := _ :: _) in H.
    destruct (opener (fw_calls w) hs u) as [body|t|e] eqn:Eo; destruct H as [-> ->].
    + cbn [snd fw_calls fw_live]. split.
      { intros k Hk. unfold close_response in *; cbn [fw_live fw_calls] in *. rewrite app_length. cbn [List.length].
        destruct Hk as [<-|Hk]; [lia|]. specialize (Hb k Hk). lia. }
      right. exists hs, u. split; [reflexivity|]. split; [discriminate|]. intros k. cbn [In]. split.
      * intros [<-|Hk]; [right|left; exact Hk]. split; [reflexivity|]. exists body. split; [exact Eo|exact I].
      * intros [Hk|(-> & _)]; [right; exact Hk|left; reflexivity].
    + cbn [snd fw_calls fw_live]. split.
      { intros k Hk. unfold close_response in *; cbn [fw_live fw_calls] in *. apply Hb in Hk. rewrite app_length. lia. }
      right. exists hs, u. split; [reflexivity|]. split; [discriminate|]. intros k. split; [tauto|].
      intros [Hk|(_ & body & Hbd & _)]; [exact Hk|]. rewrite Eo in Hbd. discriminate Hbd.
    + cbn [snd fw_calls fw_live]. split.
      { intros k Hk. unfold close_response in *; cbn [fw_live fw_calls] in *. apply Hb in Hk. rewrite app_length. lia. }
      right. exists hs, u. split; [reflexivity|]. split; [discriminate|]. intros k. split; [tauto|].
      intros [Hk|(_ & body & Hbd & _)]; [exact Hk|]. rewrite Eo in Hbd. discriminate Hbd.
  - cbn [close_response fw_calls fw_live].
    assert (Hl : forall k, In k (filter (fun k => negb (Nat.eqb k n)) (fw_live w)) <-> In k (fw_live w) /\ k <> n).
    { intros k. rewrite filter_In. destruct (Nat.eqb_spec k n) as [->|Hn]; cbn; intuition congruence. }
    split; [intros k Hk; apply Hb; apply Hl in Hk; apply Hk|]. left. split; [reflexivity|exact Hl].
  - cbn [fw_calls fw_live]. split; [exact Hb|]. left. split; reflexivity.
Qed.

Lemma live_iff : forall np os,
  let w := fop_run ip_ok opener os (mkFetchw [] [] np) in
  bounded w /\ forall n, In n (fw_live w) <-> unclosed ip_ok opener (mkFetchw [] [] np) os n.
Proof.
  intros np os. cbn zeta. set (w0 := mkFetchw [] [] np).
  induction os as [|o os IH] using rev_ind.
  - split; [intros k []|]. intros n. split; [intros []|]. intros (os1 & o & os2 & _ & _ & _ & H & _).
    destruct os1; discriminate H.
  - destruct IH as [Hb IH]. rewrite run_app_f. set (w := fop_run ip_ok opener os w0) in *.
    destruct (step_cases o w Hb) as [Hb' H]. cbn [fop_run]. split; [exact Hb'|]. intros n.
    (* histories that end with [o] *)
    assert (Hold : unclosed ip_ok opener w0 os n -> o <> OpClose n -> unclosed ip_ok opener w0 (os ++ [o]) n).
    { intros (os1 & o1 & os2 & hs & url & body & -> & Hc & Hn & Hop & Hl & Hno) Ho.
      exists os1, o1, (os2 ++ [o])%list, hs, url, body. split; [rewrite <- app_assoc; reflexivity|].
      repeat match goal with |- _ /\ _ => split end; try assumption.
      rewrite in_app_iff. intros [Hi|[Hi|[]]]; [exact (Hno Hi)|exact (Ho Hi)]. }
    assert (Hinv : unclosed ip_ok opener w0 (os ++ [o]) n ->
      (unclosed ip_ok opener w0 os n /\ o <> OpClose n) \/
      exists hs url body, calls_after ip_ok opener w0 (os ++ [o]) = (fw_calls w ++ [(hs, url)])%list /\
        List.length (fw_calls w) = n /\ opener (fw_calls w) hs url = Response body /\ leaves_open o body).
    { intros (os1 & o1 & os2 & hs & url & body & He & Hc & Hn & Hop & Hl & Hno).
      destruct (exists_last (l := o1 :: os2)) as (l' & o' & El); [discriminate|].
      rewrite El in He. destruct l' as [|o1' os2'].
      - cbn [app] in El, He. injection El as -> ->. apply app_inj_tail in He. destruct He as [<- <-].
        right. exists hs, url, body.
        repeat match goal with |- _ /\ _ => split end; assumption.
      - rewrite app_assoc in He. apply app_inj_tail in He. destruct He as [-> <-]. injection El as <- ->. left. split.
        + exists os1, o1, os2', hs, url, body. repeat match goal with |- _ /\ _ => split end; try assumption; [reflexivity|].
          intros Hi. apply Hno, in_or_app. left. exact Hi.
        + intros ->. apply Hno, in_or_app. right. left. reflexivity. }
    destruct H as [[Hc Hl]|(hs & url & Hc & Hno & Hl)].
    + assert (Hsame : In n (fw_live (fop_step ip_ok opener o w)) <-> In n (fw_live w) /\ o <> OpClose n).
      { destruct o as [u d|u d|k|v].
        1,2,4: rewrite Hl; intuition discriminate.
        rewrite Hl. split; intros [H1 H2]; (split; [exact H1|]); [intros [= ->]; apply H2; reflexivity|].
        intros ->. apply H2. reflexivity. }
      rewrite Hsame, IH. split; [intros [H1 H2]; exact (Hold H1 H2)|].
      intros Hu. destruct (Hinv Hu) as [H|(hs & url & body & Hc' & _)]; [exact H|]. exfalso.
      unfold calls_after in Hc'. rewrite run_app_f in Hc'. fold w in Hc'. cbn [fop_run] in Hc'. rewrite Hc in Hc'.
      apply (f_equal (@List.length _)) in Hc'. rewrite app_length in Hc'. cbn in Hc'. lia.
    + rewrite Hl. split.
      * intros [Hk|(-> & body & Hop & Hlo)]; [apply Hold; [apply IH, Hk|apply Hno]|].
        exists os, o, [], hs, url, body. split; [reflexivity|]. unfold calls_after. rewrite run_app_f. fold w.
        repeat match goal with |- _ /\ _ => split end; try assumption; [reflexivity|intros []].
      * intros Hu. destruct (Hinv Hu) as [[H _]|(hs' & url' & body & Hc' & Hn & Hop & Hlo)]; [left; apply IH, H|].
        right. split; [symmetry; exact Hn|]. unfold calls_after in Hc'. rewrite run_app_f in Hc'. fold w in Hc'.
        cbn [fop_run] in Hc'. rewrite Hc in Hc'. apply app_inj_tail in Hc'. destruct Hc' as [_ [= <- <-]].
        exists body. split; assumption.
Qed.
End Live.
