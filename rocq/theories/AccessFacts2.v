(** Access lists: the documents. *)
From Verif Require Import Eval SpecEval EvalFacts SpecAccess AccessFacts.
From Verif Require Import Readers SpecRead ReadFacts4 ContextXml SpecContext ContextFacts Response Setters SpecSetters
  Service SpecService ServiceFacts.
From Verif Require PropertiesRead.
Local Open Scope list_scope.

Definition list_policy_of (id : string) (alg : comb_alg) (lines : list line) : policybase :=
  PPolicy (mkMeta (Some id) (Some "1.0") (Some (alg_urn alg)) None None) None (Some alg) (map rule_of lines).

Lemma section_written : forall ns k alternatives, k <> DEnvironment ->
  section_xml ns (child_tag k) alternatives = write_container ns k (map (map (match_of k)) alternatives).
Proof.
  intros ns k alts Hk. destruct alts as [|x alts]; [reflexivity|].
  unfold section_xml, write_container. change (map (map (match_of k)) (x :: alts)) with
    (map (match_of k) x :: map (map (match_of k)) alts). cbv iota. f_equal.
  change (map (match_of k) x :: map (map (match_of k)) alts) with (map (map (match_of k)) (x :: alts)).
  rewrite map_map. unfold el. destruct k; try contradiction; unfold in_ns; cbn [child_tag container_tag];
    (f_equal; apply map_ext; intros qs; unfold write_child, el; cbn [child_tag]; f_equal; rewrite map_map; reflexivity).
Qed.

Lemma list_written : forall ns id alg lines, list_xml ns id alg lines = write_policy ns (list_policy_of id alg lines).
Proof.
  intros ns id alg lines. unfold list_xml, list_policy_of. cbn [write_policy pm_id pm_version pm_algId pm_description
    pm_xpathVersion opt_attr opt_el app]. unfold el, in_ns. f_equal. rewrite map_map. apply map_ext. intros l.
  unfold line_xml, write_rule, rule_of. cbn [rl_id rl_effect rl_description rl_target rl_condition option_map opt_attr
    opt_el app]. unfold el, in_ns. f_equal.
  f_equal. unfold write_target, el. f_equal. cbn [flat_map target_part target_of tg_subjects tg_resources tg_actions
      tg_environments].
    rewrite <- (section_written ns DSubject), <- (section_written ns DResource), <- (section_written ns DAction)
      by discriminate. cbn [write_container child_tag app]. rewrite app_nil_r. reflexivity.
Qed.

Lemma manner_implements : forall m, implements std_renv (manner_urn m) (fn_of m).
Proof. intros []; vm_compute; reflexivity. Qed.
Lemma string_type_std : string_type std_renv xsd_string StringAV.
Proof. split; [vm_compute; reflexivity|]. split; [reflexivity|]. vm_compute. discriminate. Qed.

Lemma match_writable : forall k q, k <> DEnvironment -> q_text q <> "" -> writable_match std_renv k (match_of k q).
Proof.
  intros k q Hk Hq. split; [exact Hk|]. split; [|split; [|split; [|split]]].
  - exists (manner_urn (q_manner q)), (fn_of (q_manner q)). repeat (split; [reflexivity|]). apply manner_implements.
  - intros v [= <-]. split; [exact string_type_std|]. exists (q_text q). split; [reflexivity|exact Hq].
  - intros d [= <-]. split; [|reflexivity]. split; [exact Hk|]. split; discriminate.
  - discriminate.
  - right. reflexivity.
Qed.

Lemma list_writable : forall id alg lines, worded_list lines -> NoDup (map ln_name lines) ->
  writable std_renv (list_policy_of id alg lines).
Proof.
  intros id alg lines Hw Hn. apply wr_policy.
  - split; [discriminate|]. split; [discriminate|]. split; [exists "1.0"; split; [reflexivity|discriminate]|].
    intros t H. discriminate H.
  - discriminate.
  - intros i [= <-]. destruct alg; (split; [reflexivity|discriminate]).
  - discriminate.
  - apply Forall_forall. intros r Hr. apply in_map_iff in Hr. destruct Hr as (l & <- & Hl).
    split; [discriminate|]. split; [discriminate|]. split; [|split; [discriminate|intros t H; discriminate H]].
    intros t [= <-] k ms m Hms Hm.
    assert (K : exists qs q, In qs (ln_subject l ++ ln_resource l ++ ln_action l) /\ In q qs /\ k <> DEnvironment /\
                  m = match_of k q).
    { destruct k; cbn [target_part target_of tg_subjects tg_resources tg_actions tg_environments] in Hms;
        [| | |destruct Hms]; apply in_map_iff in Hms; destruct Hms as (qs & <- & Hqs); apply in_map_iff in Hm;
        destruct Hm as (q & <- & Hq); exists qs, q; rewrite !in_app_iff; repeat (split; [auto|]); auto; discriminate. }
    destruct K as (qs & q & Hqs & Hq & Hk & ->). apply match_writable; [exact Hk|]. exact (Hw l qs q Hl Hqs Hq).
  - rewrite map_map. change (fun x => rl_id (rule_of x)) with (fun x => Some (ln_name x)).
    rewrite <- (map_map ln_name Some). apply FinFun.Injective_map_NoDup; [|exact Hn]. intros x y [= ->]. reflexivity.
Qed.

Lemma called_in_ns : forall ns s name a t k, has_char close_brace s = false ->
  has_char close_brace name = false -> called s (in_ns ns name a t k) = String.eqb name s.
Proof. exact ReadFacts2.called_el. Qed.

Ltac named9 := rewrite called_in_ns by reflexivity.

Lemma fact_doc : forall ns f, attribute_doc STD_CLASS_MAP (fact_xml ns f) (fact_attr f).
Proof.
  intros ns [id v]. split; [unfold fact_xml; named9; reflexivity|]. split; [discriminate|].
  exists id, xsd_string. repeat (split; [reflexivity|]). constructor; [|constructor].
  split; [named9; reflexivity|]. exists StringAV. split; [vm_compute; reflexivity|].
  cbn [xml_text in_ns]. split; reflexivity.
Qed.

Lemma facts_elems : forall ns facts name attrs text,
  elems_called "Attribute" (in_ns ns name attrs text (map (fact_xml ns) facts)) = map (fact_xml ns) facts /\
  elems_called "ResourceContent" (in_ns ns name attrs text (map (fact_xml ns) facts)) = [].
Proof.
  intros ns facts name attrs text. unfold elems_called. cbn [elems in_ns].
  assert (F : filter (fun k => match k with Elem _ _ _ _ => true | Comment _ => false end) (map (fact_xml ns) facts) =
              map (fact_xml ns) facts).
  { induction facts as [|f facts IH]; [reflexivity|]. cbn [map filter]. rewrite IH. reflexivity. }
  rewrite F. split.
  - apply (ReadFacts2.filter_map_called _ (fact_xml ns) "Attribute" true). intros x. unfold fact_xml. named9. reflexivity.
  - apply (ReadFacts2.filter_map_called _ (fact_xml ns) "ResourceContent" false). intros x. unfold fact_xml. named9. reflexivity.
Qed.

Lemma facts_doc : forall ns facts name attrs text,
  attributes_doc STD_CLASS_MAP (in_ns ns name attrs text (map (fact_xml ns) facts)) (map fact_attr facts).
Proof.
  intros ns facts name attrs text. unfold attributes_doc. rewrite (proj1 (facts_elems ns facts name attrs text)).
  induction facts as [|f facts IH]; constructor; [apply fact_doc|exact IH].
Qed.

Lemma access_doc : forall ns a, request_doc STD_CLASS_MAP (access_xml ns a) (asked a None None).
Proof.
  intros ns a.
  assert (EL : elems (access_xml ns a) =
    [in_ns ns "Subject" [] None (map (fact_xml ns) (ax_subject a));
     in_ns ns "Resource" [] None (map (fact_xml ns) (ax_resource a));
     in_ns ns "Action" [] None (map (fact_xml ns) (ax_action a))]) by reflexivity.
  unfold request_doc, elems_called. rewrite EL. cbn [filter].
  rewrite !called_in_ns by reflexivity. cbn [String.eqb Ascii.eqb Bool.eqb].
  split; [unfold access_xml; named9; reflexivity|]. split; [|split; [|split; [|split; [|split]]]].
  - intros k [<-|[<-|[<-|[]]]]; [exists "Subject"|exists "Resource"|exists "Action"];
      (split; [cbn; auto|named9; reflexivity]).
  - constructor; [|constructor]. split; [named9; reflexivity|]. split; [reflexivity|]. apply facts_doc.
  - constructor; [|constructor]. split; [named9; reflexivity|]. split; [apply facts_doc|].
    rewrite (proj2 (facts_elems ns (ax_resource a) "Resource" [] None)). split; [intros k []|reflexivity].
  - assert (P : part_doc "Action" STD_CLASS_MAP (in_ns ns "Action" [] None (map (fact_xml ns) (ax_action a)))
                  (map fact_attr (ax_action a))) by (split; [named9; reflexivity|apply facts_doc]).
    split; [intros k [<-|[]]; eauto|]. exists (map fact_attr (ax_action a)). split; [reflexivity|exact P].
  - split; [intros k []|reflexivity].
  - split; reflexivity.
Qed.

Lemma list_answers : forall lxml fetch fd EE handler selector knows ns ns' id alg lines a d,
  NoDup (map ln_name lines) -> worded_list lines -> patterns_compile (en_fenv EE) lines ->
  dict_get xsd_string (en_classes EE) = Some StringAV ->
  source_knows EE (asked a handler selector) (asks_for_subject lines) knows ->
  list_says (fe_match (en_fenv EE)) knows lines a alg d ->
  replies lxml fetch fd EE handler selector (list_xml ns id alg lines) (access_xml ns' a) d.
Proof.
  intros lxml fetch fd EE h x knows ns ns' id alg lines a d Hn Hw Hp Hc Hs Hd.
  destruct (PropertiesRead.C44_tree_round_trip std_renv ns fetch fd [] [] (list_policy_of id alg lines)
    PropertiesRead.C43_std_readers (list_writable id alg lines Hw Hn)) as (_ & L & HL).
  { cbn [app list_policy_of all_policies map]. repeat constructor. intros []. }
  intros depth.
  assert (HL' : read_doc (S depth) std_renv fetch fd (write_policy ns (list_policy_of id alg lines))
            (mkFstate (holding []) []) =
    Ok (list_policy_of id alg lines, mkFstate (holding ([] ++ all_policies (list_policy_of id alg lines))) [])).
  { rewrite <- (HL (S L) (le_S _ _ (le_n L))). rewrite !read_doc_S.
    replace (local_name (write_policy ns (list_policy_of id alg lines))) with (Ok "Policy"); [reflexivity|].
    symmetry. rewrite <- (list_written ns id alg lines). unfold list_xml, in_ns.
    change (local_name (el ns "Policy" [("PolicyId", id); ("Version", "1.0"); ("RuleCombiningAlgId", alg_urn alg)] None
      (map (line_xml ns) lines)) = Ok "Policy").
    rewrite ReadFacts.local_ln by exact I. rewrite ReadFacts2.ln_el by reflexivity. reflexivity. }
  destruct (answer_writes lxml d (Some (SpecResponse.plain_status ""))) as (out & Ho).
  exists out. split; [|exact (answer_written _ _ _ _ Ho)].
  unfold answers, pdp_from_source. rewrite list_written, fstate0_holding, HL'.
  cbn [bind pdp_new]. apply serve_iff. exists (CtxRequest (asked a h x)), d.
  split; [exists (asked a None None); split; [apply access_doc|reflexivity]|]. split; [|exact Ho].
  apply (list_policy EE a h x knows (asks_for_subject lines) Hc Hs); auto.
Qed.

(** What a list says is determined. *)
Lemma meets_dec : forall matches (facts : string -> list string) q,
  {meets matches (fun id v => In v (facts id)) q} + {~ meets matches (fun id v => In v (facts id)) q}.
Proof.
  intros matches facts q.
  destruct (existsb (fun v => match q_manner q with Exactly => String.eqb v (q_text q) | Matching => matches (q_text q) v end)
              (facts (q_attribute q))) eqn:B.
  - left. apply existsb_exists in B. destruct B as (v & Hv & B). exists v. split; [exact Hv|].
    destruct (q_manner q); [apply String.eqb_eq, B|exact B].
  - right. intros (v & Hv & K). apply Bool.not_true_iff_false in B. apply B, existsb_exists. exists v.
    split; [exact Hv|]. destruct (q_manner q); [apply String.eqb_eq, K|exact K].
Qed.
Lemma restricted_dec : forall matches (facts : string -> list string) alts,
  {restricted_to matches (fun id v => In v (facts id)) alts} + {~ restricted_to matches (fun id v => In v (facts id)) alts}.
Proof.
  intros matches facts alts. destruct alts as [|x alts]; [left; left; reflexivity|].
  destruct (Exists_dec (fun qs => Forall (meets matches (fun id v => In v (facts id))) qs) (x :: alts)) as [H|H].
  - intros qs. apply Forall_dec. apply meets_dec.
  - left. right. apply Exists_exists in H. destruct H as (qs & Hqs & H). exists qs. split; [exact Hqs|].
    apply Forall_forall, H.
  - right. intros [K|(qs & Hqs & K)]; [discriminate K|]. apply H, Exists_exists. exists qs. split; [exact Hqs|].
    apply Forall_forall, K.
Qed.
Lemma restricted_same : forall matches (f g : string -> string -> Prop) alts, (forall id v, f id v <-> g id v) ->
  (restricted_to matches f alts <-> restricted_to matches g alts).
Proof.
  intros matches f g alts H. unfold restricted_to, meets. split; (intros [K|(qs & Hqs & K)]; [auto|right]);
    exists qs; (split; [exact Hqs|]); intros q Hq; destruct (K q Hq) as (v & Hv & T); exists v; (split; [apply H, Hv|exact T]).
Qed.
Lemma about_dec : forall matches knows a l, {about matches knows a l} + {~ about matches knows a l}.
Proof.
  intros matches knows a l. unfold about.
  assert (D1 : {restricted_to matches (fun id v => In (id, v) (ax_subject a) \/ In v (knows id)) (ln_subject l)} +
               {~ restricted_to matches (fun id v => In (id, v) (ax_subject a) \/ In v (knows id)) (ln_subject l)}).
  { pose proof (restricted_same matches (fun id v => In v (values_of id (ax_subject a) ++ knows id))
      (fun id v => In (id, v) (ax_subject a) \/ In v (knows id)) (ln_subject l)) as S.
    assert (K : forall id v, In v (values_of id (ax_subject a) ++ knows id) <-> In (id, v) (ax_subject a) \/ In v (knows id))
      by (intros id v; rewrite in_app_iff, values_in; reflexivity).
    destruct (restricted_dec matches (fun id => values_of id (ax_subject a) ++ knows id) (ln_subject l)) as [H|H];
      [left; apply (S K), H|right; intros C; apply H, (S K), C]. }
  assert (D2 : forall facts alts, {restricted_to matches (fun id v => In (id, v) facts) alts} +
               {~ restricted_to matches (fun id v => In (id, v) facts) alts}).
  { intros facts alts. pose proof (restricted_same matches (fun id v => In v (values_of id facts))
      (fun id v => In (id, v) facts) alts (fun id v => values_in id facts v)) as S.
    destruct (restricted_dec matches (fun id => values_of id facts) alts) as [H|H];
      [left; apply S, H|right; intros C; apply H, S, C]. }
  destruct D1 as [H1|H1]; [|right; tauto].
  destruct (D2 (ax_resource a) (ln_resource l)) as [H2|H2]; [|right; tauto].
  destruct (D2 (ax_action a) (ln_action l)) as [H3|H3]; [left; tauto|right; tauto].
Qed.

Lemma someone_dec : forall matches knows lines a e,
  {someone_says matches knows lines a e} + {~ someone_says matches knows lines a e}.
Proof.
  intros matches knows lines a e.
  assert (DE : forall x y : effect, {x = y} + {x <> y}) by decide equality.
  destruct (Exists_dec (fun l => about matches knows a l /\ ln_says l = e) lines) as [H|H].
  - intros l. destruct (about_dec matches knows a l); [|right; tauto].
    destruct (DE (ln_says l) e); [left; tauto|right; tauto].
  - left. apply Exists_exists in H. destruct H as (l & H1 & H2 & H3). exists l. auto.
  - right. intros (l & H1 & H2 & H3). apply H, Exists_exists. exists l. auto.
Qed.

Lemma list_says_total : forall matches knows lines a alg, exists d, list_says matches knows lines a alg d.
Proof.
  intros matches knows lines a alg.
  assert (NN : ~ someone_says matches knows lines a EffDeny -> ~ someone_says matches knows lines a EffPermit ->
               forall l, In l lines -> ~ about matches knows a l).
  { intros N1 N2 l Hl A. destruct (ln_says l) eqn:S; [apply N2|apply N1]; exists l; auto. }
  destruct alg.
  - destruct (someone_dec matches knows lines a EffDeny) as [D|D]; [exists Deny; constructor; exact D|].
    destruct (someone_dec matches knows lines a EffPermit) as [P|P]; [exists Permit; constructor; assumption|].
    exists NotApplicable. constructor. auto.
  - destruct (someone_dec matches knows lines a EffPermit) as [P|P]; [exists Permit; constructor; exact P|].
    destruct (someone_dec matches knows lines a EffDeny) as [D|D]; [exists Deny; constructor; assumption|].
    exists NotApplicable. constructor. auto.
  - clear NN.
    assert (F : (forall l, In l lines -> ~ about matches knows a l) \/
      exists before l after, lines = before ++ l :: after /\ (forall l', In l' before -> ~ about matches knows a l') /\
        about matches knows a l).
    { induction lines as [|l lines IH]; [left; intros l []|].
      destruct (about_dec matches knows a l) as [A|A].
      - right. exists [], l, lines. split; [reflexivity|]. split; [intros l' []|exact A].
      - destruct IH as [N|(b & l0 & af & -> & B & C)].
        + left. intros l' [<-|H]; auto.
        + right. exists (l :: b), l0, af. split; [reflexivity|]. split; [|exact C]. intros l' [<-|H]; auto. }
    destruct F as [N|(b & l & af & E & B & C)]; [exists NotApplicable; constructor; exact N|].
    exists (verdict (ln_says l)). econstructor; eauto.
Qed.

Lemma first_unique : forall A (P : A -> Prop) b l af b' l' af', b ++ l :: af = b' ++ l' :: af' ->
  (forall x, In x b -> ~ P x) -> (forall x, In x b' -> ~ P x) -> P l -> P l' -> l = l'.
Proof.
  induction b as [|x b IH]; intros l af b' l' af' E H H' Hl Hl'.
  - destruct b' as [|y b']; cbn [app] in E; injection E as -> E; [reflexivity|].
    destruct (H' y); [left; reflexivity|exact Hl].
  - destruct b' as [|y b']; cbn [app] in E; injection E as -> E.
    + destruct (H l'); [left; reflexivity|exact Hl'].
    + apply (IH l af b' l' af' E); auto; intros z Hz; [apply H|apply H']; right; exact Hz.
Qed.
Lemma list_says_unique : forall matches knows lines a alg d d',
  list_says matches knows lines a alg d -> list_says matches knows lines a alg d' -> d = d'.
Proof.
  intros matches knows lines a alg d d' H H'.
  assert (Q : forall e, someone_says matches knows lines a e -> ~ forall l, In l lines -> ~ about matches knows a l)
    by (intros e (l & H1 & H2 & _) N; exact (N l H1 H2)).
  destruct H as [b l af Hl Hb Ha|H|H1 H2|H|H1 H2|alg0 H]; inversion H' as [b' l' af' Hl' Hb' Ha'|K|K1 K2|K|K1 K2|alg1 K];
    subst; try reflexivity; try contradiction; try (exfalso; eapply Q; eassumption).
  - rewrite (first_unique _ (about matches knows a) b l af b' l' af' Hl' Hb Hb' Ha Ha'). reflexivity.
  - exfalso. apply (K l); [apply in_elt|exact Ha].
  - exfalso. apply (H l'); [apply in_elt|exact Ha'].
Qed.

(** ** Matrices and roles *)
Lemma is_met : forall matches facts id text, restricted_to matches facts (is id text) <-> facts id text.
Proof.
  intros matches facts id text. unfold restricted_to, is, meets. split.
  - intros [H|(qs & [<-|[]] & H)]; [discriminate H|].
    destruct (H _ (or_introl eq_refl)) as (v & Hv & K). cbn [q_manner q_text q_attribute] in *. subst v. exact Hv.
  - intros H. right. exists [mkRequirement id Exactly text]. split; [left; reflexivity|].
    intros q [<-|[]]. exists text. split; [exact H|reflexivity].
Qed.

Lemma cell_about : forall matches knows c u r act, (forall id, knows id = []) ->
  (about matches knows (triple u r act) (cell_line c) <-> cl_user c = u /\ cl_resource c = r /\ cl_action c = act).
Proof.
  intros matches knows c u r act K. unfold about, cell_line, triple. cbn [ln_subject ln_resource ln_action ax_subject
    ax_resource ax_action]. rewrite !is_met, K. cbn [In]. split.
  - intros ([[[= H1]|[]]|[]] & [[= H2]|[]] & [[= H3]|[]]). auto.
  - intros (-> & -> & ->). auto 8.
Qed.

Lemma matrix_says : forall matches knows cells alg c, (forall id, knows id = []) ->
  (forall c1 c2, In c1 cells -> In c2 cells -> cl_user c1 = cl_user c2 -> cl_resource c1 = cl_resource c2 ->
     cl_action c1 = cl_action c2 -> cl_entry c1 = cl_entry c2) ->
  In c cells ->
  list_says matches knows (map cell_line cells) (triple (cl_user c) (cl_resource c) (cl_action c)) alg
    (verdict (cl_entry c)).
Proof.
  intros matches knows cells alg c K U Hc. set (a := triple (cl_user c) (cl_resource c) (cl_action c)).
  assert (A : forall c', In c' cells -> about matches knows a (cell_line c') -> cl_entry c' = cl_entry c).
  { intros c' Hc' A. unfold a in A. apply cell_about in A; [|exact K]. destruct A as (A1 & A2 & A3). apply U; auto. }
  assert (S : someone_says matches knows (map cell_line cells) a (cl_entry c)).
  { exists (cell_line c). split; [apply in_map, Hc|]. split; [apply cell_about; auto|reflexivity]. }
  assert (N : forall e, someone_says matches knows (map cell_line cells) a e -> e = cl_entry c).
  { intros e (l & Hl & Ha & <-). apply in_map_iff in Hl. destruct Hl as (c' & <- & Hc'). exact (A c' Hc' Ha). }
  destruct (list_says_total matches knows (map cell_line cells) a alg) as (d & Hd).
  replace (verdict (cl_entry c)) with d; [exact Hd|]. destruct Hd as [b l af Hl Hb Ha|H|H1 H2|H|H1 H2|alg H].
  - assert (I : In l (map cell_line cells)) by (rewrite Hl; apply in_elt). f_equal. apply N. exists l. auto.
  - rewrite <- (N _ H). reflexivity.
  - rewrite <- (N _ H2). reflexivity.
  - rewrite <- (N _ H). reflexivity.
  - rewrite <- (N _ H2). reflexivity.
  - exfalso. destruct S as (l & Hl & Ha & _). exact (H l Hl Ha).
Qed.

Lemma matrix_silent : forall matches knows cells alg u r act, (forall id, knows id = []) ->
  (forall c, In c cells -> ~ (cl_user c = u /\ cl_resource c = r /\ cl_action c = act)) ->
  list_says matches knows (map cell_line cells) (triple u r act) alg NotApplicable.
Proof.
  intros matches knows cells alg u r act K H. apply says_nothing. intros l Hl A. apply in_map_iff in Hl.
  destruct Hl as (c & <- & Hc). apply cell_about in A; [|exact K]. exact (H c Hc A).
Qed.

Lemma roles_say : forall matches knows attribute rest ps subject r act,
  let a := mkAccess subject [(resource_id, r)] [(action_id, act)] in
  let allowed := exists p, In p ps /\ (In (attribute, pr_role p) subject \/ In (pr_role p) (knows attribute)) /\
                   pr_resource p = r /\ pr_action p = act in
  (allowed -> list_says matches knows (role_lines attribute rest ps) a FirstApplicable Permit) /\
  (~ allowed -> list_says matches knows (role_lines attribute rest ps) a FirstApplicable Deny).
Proof.
  intros matches knows at0 rest ps sub r act a allowed.
  set (of := fun p => mkLine (pr_name p) EffPermit (is at0 (pr_role p)) (is resource_id (pr_resource p))
                  (is action_id (pr_action p))).
  assert (A : forall p, about matches knows a (of p) <->
    (In (at0, pr_role p) sub \/ In (pr_role p) (knows at0)) /\ pr_resource p = r /\ pr_action p = act).
  { intros p. unfold about, of, a. cbn [ln_subject ln_resource ln_action ax_subject ax_resource ax_action].
    rewrite !is_met. cbn [In]. split.
    - intros (H & [[= H2]|[]] & [[= H3]|[]]). auto.
    - intros (H & -> & ->). auto 8. }
  assert (R : about matches knows a (mkLine rest EffDeny [] [] [])) by (repeat split; left; reflexivity).
  destruct (list_says_total matches knows (role_lines at0 rest ps) a FirstApplicable) as (d & Hd).
  unfold role_lines in *. fold of in Hd. fold of. split.
  - intros (p & Hp & Ha). replace Permit with d; [exact Hd|]. inversion Hd as [b l af Hl Hb Hl'| | | | |alg0 H]; subst.
    + assert (I : In l (map of ps ++ [mkLine rest EffDeny [] [] []])) by (rewrite Hl; apply in_elt).
      apply in_app_iff in I. destruct I as [I|[<-|[]]].
      * apply in_map_iff in I. destruct I as (q & <- & _). reflexivity.
      * exfalso. apply (Hb (of p)); [|apply A, Ha].
        assert (J : In (of p) (map of ps)) by (apply in_map, Hp).
        destruct af as [|z af]; [apply app_inj_tail in Hl; destruct Hl as (<- & _); exact J|].
        exfalso. assert (Hl2 : map of ps = b ++ [mkLine rest EffDeny [] [] []] ++ removelast (z :: af)).
        { assert (RL : forall (x y : list line) w, removelast (x ++ [w]) = x) by (intros; apply removelast_last).
          rewrite <- (RL (map of ps) [] (mkLine rest EffDeny [] [] [])), Hl.
          replace (b ++ mkLine rest EffDeny [] [] [] :: z :: af) with
            ((b ++ [mkLine rest EffDeny [] [] []]) ++ (z :: af)) by (rewrite <- app_assoc; reflexivity).
          rewrite removelast_app by discriminate. rewrite <- app_assoc. reflexivity. }
        assert (Q : In (mkLine rest EffDeny [] [] []) (map of ps)) by (rewrite Hl2; apply in_elt).
        apply in_map_iff in Q. destruct Q as (q & Q & _). discriminate Q.
    + exfalso. apply (H (of p)); [apply in_app_iff; left; apply in_map, Hp|apply A, Ha].
  - intros N. apply (says_first matches knows _ a (map of ps) (mkLine rest EffDeny [] [] []) []); [reflexivity| |exact R].
    intros l Hl Ha. apply in_map_iff in Hl. destruct Hl as (p & <- & Hp). apply N. exists p. split; [exact Hp|].
    apply A, Ha.
Qed.
