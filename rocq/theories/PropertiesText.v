(** C46, C48, C52, C53, C54: registries, reference URLs, boolean strings, the
    proxy bypass list and qualified names. *)
From Verif Require Import Base Strings StringFacts Syntax Registry Text SpecText TextFacts Sample.

(** ** C52 *)

(** For every string: str2Bool is True exactly if the string is yes, true, t or 1
    up to the case of its letters. *)
Theorem C52_str2bool : forall s,
  str2bool s = true <-> exists w, In w ["yes"; "true"; "t"; "1"] /\ same_but_case s w.
Proof. exact str2bool_iff. Qed.

Example C52_examples : str2bool "TrUe" = true /\ str2bool "T" = true /\ str2bool "on" = false
  /\ str2bool "true " = false /\ str2bool "" = false.
Proof. vm_compute. repeat split; reflexivity. Qed.

(** ** C53 *)

(** The characters that count as blanks. *)
Theorem C53_blanks : forall c, is_space c = true <->
  In (nat_of_ascii c) [9; 10; 11; 12; 13; 28; 29; 30; 31; 32].
Proof.
  intros c. destruct c as [[] [] [] [] [] [] [] []]; cbn; split; intros H; try discriminate; try tauto;
    repeat (destruct H as [H|H]; [discriminate|]); destruct H.
Qed.

(** For every host and setting: no proxy is used exactly if the host equals an
    entry of the comma separated list, without the blanks around the entry. *)
Theorem C53_proxy_bypass : forall h no_proxy,
  should_use_proxy (Some h) no_proxy = false <->
  exists l e, entries no_proxy l /\ In e l /\ trimmed e h.
Proof. exact no_proxy_iff. Qed.

(** The entries of a setting are determined by it, and so is a trimmed entry. *)
Theorem C53_entries_determined : forall s l l', entries s l -> entries s l' -> l = l'.
Proof. intros s l l' H H'. rewrite <- (entries_unique l s H). apply entries_unique, H'. Qed.
Theorem C53_trimmed_determined : forall s t t', trimmed s t -> trimmed s t' -> t = t'.
Proof. intros s t t' H H'. rewrite <- (trimmed_strip s t H). apply trimmed_strip, H'. Qed.

(** An entry never matches by prefix or suffix: with a single entry without
    blanks and commas, only that host bypasses the proxy. *)
Theorem C53_single_entry : forall h e,
  has_char "," e = false -> trimmed e e ->
  (should_use_proxy (Some h) e = false <-> h = e).
Proof.
  intros h e Hc Ht. rewrite no_proxy_iff.
  assert (Hl : entries e [e]).
  { split; [discriminate|]. split; [reflexivity|]. intros x [<-|[]]. exact Hc. }
  split.
  - intros (l & x & Hl' & Hx & Hh). rewrite (C53_entries_determined _ _ _ Hl' Hl) in Hx.
    destruct Hx as [<-|[]]. exact (C53_trimmed_determined _ _ _ Hh Ht).
  - intros ->. exists [e], e. split; [exact Hl|]. split; [left; reflexivity|exact Ht].
Qed.

(** A URL without host always goes through the proxy settings. *)
Theorem C53_no_host : forall no_proxy, should_use_proxy None no_proxy = true.
Proof.
  intros np. unfold should_use_proxy. induction (map py_strip (py_split "," np)) as [|x l IH]; [reflexivity|exact IH].
Qed.

Example C53_examples :
  should_use_proxy (Some "localhost") "example.org, localhost ,10.0.0.1" = false
  /\ should_use_proxy (Some "www.example.org") "example.org, localhost" = true
  /\ entries "example.org, localhost" ["example.org"; " localhost"]
  /\ trimmed " localhost" "localhost".
Proof.
  split; [reflexivity|]. split; [reflexivity|]. split.
  - split; [discriminate|]. split; [reflexivity|]. intros e [<-|[<-|[]]]; reflexivity.
  - exact (strip_trimmed " localhost").
Qed.

(** ** C54 *)

(** {ns}name has local part name and namespace ns, for every ns without closing
    brace and line break and every name without closing brace. *)
Theorem C54_parts : forall ns name,
  has_char close_brace ns = false -> has_char newline ns = false ->
  has_char close_brace name = false ->
  get_local_part ("{" ++ ns ++ "}" ++ name) = name /\ get_ns ("{" ++ ns ++ "}" ++ name) = ns.
Proof.
  intros ns name _ Hn Hc. split.
  - apply local_iff. split; [exact Hc|]. right. exists (String open_brace ns). reflexivity.
  - apply (get_ns_of ns name Hn Hc).
Qed.

(** A name without closing brace is its own local part and has no namespace. *)
Theorem C54_plain_name : forall name,
  has_char close_brace name = false -> get_local_part name = name /\ get_ns name = "".
Proof.
  intros name H. split.
  - apply local_iff. split; [exact H|left; reflexivity].
  - unfold get_ns. rewrite (search_none name H). reflexivity.
Qed.

(** For every string whatever: the local part is what follows the last closing
    brace. *)
Theorem C54_local_part : forall s n,
  get_local_part s = n <->
  has_char close_brace n = false /\ (s = n \/ exists a, s = (a ++ "}" ++ n)%string).
Proof. exact local_iff. Qed.

(** A qualified name built from namespace and name has exactly these parts, and
    the name read back from its text is equal to it, whatever the prefixes. *)
Theorem C54_round_trip : forall ns name p p',
  name <> "" -> has_char newline ns = false -> has_char close_brace name = false ->
  let q := qname_new ns (Some name) p in
  qn_ns q = ns /\ qn_local q = name /\
  qname_eq q (Some (qname_new (qn_text q) None p')) = Ok true.
Proof.
  intros ns name p p' Hne Hn Hc. destruct name as [|c name]; [contradiction|]. cbv zeta.
  split; [reflexivity|]. split; [reflexivity|]. unfold qname_eq. cbn [qname_new qn_text qn_ns qn_local].
  change ("{" ++ ns ++ "}" ++ String c name)%string
    with (String open_brace (ns ++ String close_brace (String c name))).
  rewrite (get_ns_of ns (String c name) Hn Hc).
  replace (get_local_part _) with (String c name).
  - rewrite !String.eqb_refl. reflexivity.
  - symmetry. apply local_iff. split; [exact Hc|]. right. exists (String open_brace ns). reflexivity.
Qed.

(** Equality is equality of namespace and local part; the prefix and anything
    else does not matter; inequality is its negation. *)
Theorem C54_equality : forall a b,
  (qname_eq a (Some b) = Ok true <-> qn_ns a = qn_ns b /\ qn_local a = qn_local b) /\
  (qname_ne a (Some b) = Ok true <-> ~ (qn_ns a = qn_ns b /\ qn_local a = qn_local b)) /\
  qname_eq a None = Raise ETypeError /\ qname_ne a None = Raise ETypeError.
Proof.
  intros a b. rewrite <- and_assoc. split; [|split; reflexivity]. unfold qname_ne, qname_eq. cbn [bind].
  destruct (String.eqb (qn_ns a) (qn_ns b)) eqn:E1; destruct (String.eqb (qn_local a) (qn_local b)) eqn:E2;
    cbn; rewrite ?String.eqb_eq, ?String.eqb_neq in *; intuition congruence.
Qed.

(** With a line break in the namespace the namespace is lost. *)
Theorem C54_line_break_refuted : exists ns name,
  has_char close_brace ns = false /\ has_char close_brace name = false /\
  get_ns ("{" ++ ns ++ "}" ++ name) <> ns.
Proof.
  exists (String "u" (String newline "v")), "Policy".
  split; [reflexivity|]. split; [reflexivity|]. vm_compute. discriminate.
Qed.

Example C54_examples :
  get_ns "{urn:oasis:names:tc:xacml:2.0:policy:schema:os}Policy" = "urn:oasis:names:tc:xacml:2.0:policy:schema:os"
  /\ get_local_part "{urn:oasis:names:tc:xacml:2.0:policy:schema:os}Policy" = "Policy".
Proof. vm_compute. split; reflexivity. Qed.

(** ** C48 *)

(** For every reference, with the small specification [meaning] of what it
    denotes: complete URLs and absolute files are used as they are; a path
    relative to the base is placed under it; without base it raises. *)
Theorem C48_url : forall base r u relative, meaning r u relative ->
  make_url base r =
  if relative
  then match base with
       | None => Raise ETypeError
       | Some b => if String.prefix "/" u then Ok ("file://" ++ u)%string
                   else Ok ("file://" ++ under b u)%string
       end
  else Ok u.
Proof. exact make_url_spec. Qed.

(** Every reference has a meaning, and only one. *)
Theorem C48_every_reference : forall r, exists u relative, meaning r u relative.
Proof. exact meaning_total. Qed.
Theorem C48_meaning_determined : forall r u rel u' rel',
  meaning r u rel -> meaning r u' rel' -> u = u' /\ rel = rel'.
Proof.
  intros r u rel u' rel' H H'.
  pose proof (make_url_spec None _ _ _ H) as E. rewrite (make_url_spec None _ _ _ H') in E.
  pose proof (make_url_spec (Some "") _ _ _ H) as E2. rewrite (make_url_spec (Some "") _ _ _ H') in E2.
  destruct rel, rel'; try discriminate.
  - split; [|reflexivity]. unfold under in E2. cbn [String.eqb] in E2.
    apply (app_inv_head_s "file://").
    destruct (String.prefix "/" u), (String.prefix "/" u'); injection E2 as ->; reflexivity.
  - injection E as ->. split; reflexivity.
Qed.

(** The result always starts with a scheme. *)
Theorem C48_has_scheme : forall base r u, make_url base r = Ok u ->
  exists s, In s ["file://"; "ftp://"; "http://"; "https://"] /\ String.prefix s u = true.
Proof.
  intros base r u H. destruct (meaning_total r) as (v & rel & Hm).
  rewrite (make_url_spec base r v rel Hm) in H. destruct rel.
  - destruct base as [b|]; [|discriminate]. exists "file://". split; [left; reflexivity|].
    destruct (String.prefix "/" v); injection H as <-; apply (prefix_app "file://").
  - injection H as <-. inversion Hm; subst.
    + exists "ftp://". split; [right; left; reflexivity|apply prefix_app].
    + exists "http://". split; [right; right; left; reflexivity|apply prefix_app].
    + exists "https://". split; [right; right; right; left; reflexivity|apply prefix_app].
    + exists "file://". split; [left; reflexivity|]. apply (prefix_app "file://" ("/" ++ _)).
    + exists "file://". split; [left; reflexivity|]. apply (prefix_app "file://" ("/" ++ _)).
Qed.

(** It raises exactly for a relative reference without base path. *)
Theorem C48_raises : forall base r,
  (exists e, make_url base r = Raise e) <-> base = None /\ exists p, meaning r p true.
Proof.
  intros base r. split.
  - intros [e H]. destruct (meaning_total r) as (v & rel & Hm).
    rewrite (make_url_spec base r v rel Hm) in H. destruct rel; [|discriminate].
    destruct base as [b|]; [destruct (String.prefix "/" v); discriminate|].
    split; [reflexivity|]. exists v. exact Hm.
  - intros [-> [p Hm]]. exists ETypeError. rewrite (make_url_spec None r p true Hm). reflexivity.
Qed.

(** A relative path that does not start with a separator stays under the base. *)
Theorem C48_under_base : forall b r p, meaning r p true -> String.prefix "/" p = false ->
  exists u, make_url (Some b) r = Ok u /\ String.prefix ("file://" ++ b) u = true.
Proof.
  intros b r p Hm Hp. rewrite (make_url_spec (Some b) r p true Hm), Hp.
  eexists. split; [reflexivity|]. rewrite prefix_app_r. apply under_prefix.
Qed.

(** That every relative reference stays under the base path is false:
    file://.// followed by a path is made absolute. *)
Theorem C48_always_under_base_refuted : exists b r p u,
  meaning r p true /\ make_url (Some b) r = Ok u /\ String.prefix ("file://" ++ b) u = false.
Proof.
  exists "/srv/policies", "file://.//etc/passwd", "/etc/passwd", "file:///etc/passwd".
  split; [apply (mean_file_dot "/etc/passwd")|]. split; reflexivity.
Qed.

(** With an absolute base path, a URL made from a reference is used unchanged
    when it is itself taken as a reference, with any base. *)
Theorem C48_stable : forall b base r u, String.prefix "/" b = true ->
  make_url (Some b) r = Ok u -> make_url base u = Ok u.
Proof.
  intros b base r u Hb H. destruct (meaning_total r) as (v & rel & Hm).
  rewrite (make_url_spec (Some b) r v rel Hm) in H.
  assert (Hf : forall w, String.prefix "/" w = true -> make_url base ("file://" ++ w) = Ok ("file://" ++ w)%string).
  { intros w Hw. apply prefix_true_iff in Hw. destruct Hw as [t ->].
    apply (make_url_spec base _ _ _ (mean_file_abs t)). }
  destruct rel.
  - destruct (String.prefix "/" v) eqn:E; injection H as <-; apply Hf; [exact E|].
    apply prefix_true_iff in Hb. destruct Hb as [t ->].
    destruct (proj1 (prefix_true_iff _ _) (under_prefix ("/" ++ t) v)) as [t' ->].
    rewrite app_assoc_s. apply prefix_app.
  - injection H as <-. inversion Hm; subst.
    + apply (make_url_spec base _ _ _ (mean_ftp _)).
    + apply (make_url_spec base _ _ _ (mean_http _)).
    + apply (make_url_spec base _ _ _ (mean_https _)).
    + apply (make_url_spec base _ _ _ (mean_file_abs _)).
    + apply (make_url_spec base _ _ _ (mean_file_abs _)).
Qed.

Example C48_examples :
  make_url (Some "/srv/policies") "sub/p.xml" = Ok "file:///srv/policies/sub/p.xml"
  /\ make_url (Some "/srv/") "file://./p.xml" = Ok "file:///srv/p.xml"
  /\ make_url None "https://host/p.xml" = Ok "https://host/p.xml"
  /\ make_url None "p.xml" = Raise ETypeError
  /\ meaning "sub/p.xml" "sub/p.xml" true.
Proof.
  split; [reflexivity|]. split; [reflexivity|]. split; [reflexivity|]. split; [reflexivity|].
  apply mean_rel; [reflexivity|]. intros s [<-|[<-|[<-|[<-|[]]]]]; reflexivity.
Qed.

(** ** C46 *)

(** After any sequence of registrations and lookups: looking an id up returns the
    first policy registered under it, or raises if there is none. *)
Theorem C46_lookup : forall ops ref,
  let g := rg_run ops registry0 in
  local_find_policy g ref
    = match first_with (Some ref) (policies_offered ops) with
      | Some p => Ok p | None => Raise EXMLParseError end /\
  local_find_policy_set g ref
    = match first_with (Some ref) (sets_offered ops) with
      | Some p => Ok p | None => Raise EXMLParseError end.
Proof.
  intros ops ref g. destruct (rg_content ops (Some ref)) as [H1 H2].
  unfold local_find_policy, local_find_policy_set. fold g in H1, H2. rewrite H1, H2. split; reflexivity.
Qed.

(** A lookup returns only a policy (policy set) whose own id is the one asked
    for and that was offered for registration. *)
Theorem C46_lookup_id : forall ops ref p,
  let g := rg_run ops registry0 in
  (local_find_policy g ref = Ok p -> id_of p = Some ref /\ In p (policies_offered ops)) /\
  (local_find_policy_set g ref = Ok p -> id_of p = Some ref /\ In p (sets_offered ops)).
Proof.
  intros ops ref p g. destruct (C46_lookup ops ref) as [H1 H2]. fold g in H1, H2. rewrite H1, H2.
  unfold first_with. split; (destruct (find _ _) as [q|] eqn:E; [|discriminate]);
    intros H; injection H as <-; apply find_some in E; destruct E as [E1 E2]; apply okey_eq in E2;
    split; assumption.
Qed.

(** Registering raises exactly if the id is taken, and then changes nothing;
    otherwise every other id keeps its policy. *)
Theorem C46_register : forall ops m t a rs,
  let g := rg_run ops registry0 in
  let p := PPolicy m t a rs in
  (first_with (pm_id m) (policies_offered ops) <> None ->
     rg_step g (RAdd p) = (Raise EXMLParseError, g)) /\
  (first_with (pm_id m) (policies_offered ops) = None ->
     exists g', rg_step g (RAdd p) = (Ok tt, g') /\
       key_get (pm_id m) (rg_policies g') = Some p /\
       (forall k, k <> pm_id m -> key_get k (rg_policies g') = key_get k (rg_policies g)) /\
       rg_sets g' = rg_sets g).
Proof.
  intros ops m t a rs g p. destruct (rg_content ops (pm_id m)) as [H1 _]. fold g in H1.
  unfold rg_step, p, add_policy, key_mem. rewrite H1.
  destruct (first_with (pm_id m) (policies_offered ops)) as [q|] eqn:E; split; intros H; try congruence.
  eexists. split; [reflexivity|]. cbn [rg_policies rg_sets]. split.
    { rewrite key_get_app, H1. cbn [key_get]. rewrite (proj2 (okey_eq _ _) eq_refl). reflexivity. }
    split; [|reflexivity]. intros k Hk. rewrite key_get_app. cbn [key_get].
      destruct (opt_eqb String.eqb k (pm_id m)) eqn:Ek; [apply okey_eq in Ek; contradiction|].
      destruct (key_get k (rg_policies g)); reflexivity.
Qed.

Theorem C46_register_set : forall ops m t a cs,
  let g := rg_run ops registry0 in
  let p := PPolicySet m t a cs in
  (first_with (pm_id m) (sets_offered ops) <> None ->
     rg_step g (RAddSet p) = (Raise EXMLParseError, g)) /\
  (first_with (pm_id m) (sets_offered ops) = None ->
     exists g', rg_step g (RAddSet p) = (Ok tt, g') /\
       key_get (pm_id m) (rg_sets g') = Some p /\
       (forall k, k <> pm_id m -> key_get k (rg_sets g') = key_get k (rg_sets g)) /\
       rg_policies g' = rg_policies g).
Proof.
  intros ops m t a cs g p. destruct (rg_content ops (pm_id m)) as [_ H1]. fold g in H1.
  unfold rg_step, p, add_policy_set, key_mem. rewrite H1.
  destruct (first_with (pm_id m) (sets_offered ops)) as [q|] eqn:E; split; intros H; try congruence.
  eexists. split; [reflexivity|]. cbn [rg_policies rg_sets]. split.
    { rewrite key_get_app, H1. cbn [key_get]. rewrite (proj2 (okey_eq _ _) eq_refl). reflexivity. }
    split; [|reflexivity]. intros k Hk. rewrite key_get_app. cbn [key_get].
      destruct (opt_eqb String.eqb k (pm_id m)) eqn:Ek; [apply okey_eq in Ek; contradiction|].
      destruct (key_get k (rg_sets g)); reflexivity.
Qed.

Definition s_pol (id : string) (rs : list rule) : policybase :=
  PPolicy (mkMeta (Some id) None None None None) None (Some DenyOverrides) rs.
Definition s_pset (id : string) (cs : list policybase) : policybase :=
  PPolicySet (mkMeta (Some id) None None None None) None (Some DenyOverrides) cs.

Example C46_example :
  let ops := [RAdd (s_pol "a" [r_permit]); RAdd (s_pol "b" []); RFind "c"; RAdd (s_pol "a" [r_deny]);
              RAddSet (s_pset "a" [])] in
  let g := rg_run ops registry0 in
  local_find_policy g "a" = Ok (s_pol "a" [r_permit])
  /\ local_find_policy_set g "a" = Ok (s_pset "a" [])
  /\ local_find_policy g "c" = Raise EXMLParseError
  /\ fst (rg_step g (RAdd (s_pol "b" [r_deny]))) = Raise EXMLParseError.
Proof. vm_compute. repeat split; reflexivity. Qed.

Print Assumptions C52_str2bool.
Print Assumptions C53_blanks.
Print Assumptions C53_proxy_bypass.
Print Assumptions C53_entries_determined.
Print Assumptions C53_trimmed_determined.
Print Assumptions C53_single_entry.
Print Assumptions C53_no_host.
Print Assumptions C54_parts.
Print Assumptions C54_plain_name.
Print Assumptions C54_local_part.
Print Assumptions C54_round_trip.
Print Assumptions C54_equality.
Print Assumptions C54_line_break_refuted.
Print Assumptions C48_url.
Print Assumptions C48_every_reference.
Print Assumptions C48_meaning_determined.
Print Assumptions C48_has_scheme.
Print Assumptions C48_raises.
Print Assumptions C48_under_base.
Print Assumptions C48_always_under_base_refuted.
Print Assumptions C48_stable.
Print Assumptions C46_lookup.
Print Assumptions C46_lookup_id.
Print Assumptions C46_register.
Print Assumptions C46_register_set.
