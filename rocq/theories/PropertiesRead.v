(** C43, C44, C45, C47: reading policy documents. *)
From Verif Require Import Readers SpecText SpecSetters SpecRead Sample.
From Verif Require Import ReadFacts ReadFacts2 ReadFacts3 ReadFacts4.

(** ** C43: reading a policy *)

(** The policies read are exactly what their documents mean. *)
Theorem C43_read_policy_iff : forall E d p, default_readers E ->
  (read_policy E d = Ok p <-> policy_doc E d p).
Proof. intros E d p HE. exact (read_policy_iff E HE d p). Qed.

(** In particular: id, algorithm and version are those of the document; there is one
    rule per Rule element, in document order, with its id and effect; ids are distinct. *)
Theorem C43_rules_in_order : forall E d p, default_readers E -> read_policy E d = Ok p ->
  exists m t alg rules, p = PPolicy m t (Some alg) rules /\
    pm_id m = xml_attr "PolicyId" d /\
    pm_algId m = xml_attr "RuleCombiningAlgId" d /\
    option_map rule_algorithm (pm_algId m) = Some (Some alg) /\
    pm_version m = Some (version_doc d) /\
    map rl_id rules = map (xml_attr "RuleId") (elems_called "Rule" d) /\
    map (fun r => option_map effect_name (rl_effect r)) rules =
      map (xml_attr "Effect") (elems_called "Rule" d) /\
    Forall2 (rule_doc E) (elems_called "Rule" d) rules /\
    NoDup (map rl_id rules).
Proof.
  intros E d p HE H. apply (read_policy_iff E HE) in H.
  destruct H as (_ & _ & id & ai & alg & de & xp & t & rs & -> & Hid & Hai & Ha & _ & _ & _ & Hr & Hnd).
  eexists _, t, alg, rs. split; [reflexivity|]. cbn [pm_id pm_algId pm_version].
  split; [symmetry; exact Hid|]. split; [symmetry; exact Hai|]. cbn [option_map]. rewrite Ha.
  split; [reflexivity|]. split; [reflexivity|].
  split; [|split; [|split; [exact Hr|exact Hnd]]].
  - clear -Hr. induction Hr as [|k r ks rs Hk _ IH]; [reflexivity|]. cbn [map]. rewrite IH.
    destruct Hk as (_ & _ & (i & e & -> & _ & -> & _) & _). reflexivity.
  - clear -Hr. induction Hr as [|k r ks rs Hk _ IH]; [reflexivity|]. cbn [map]. rewrite IH.
    destruct Hk as (_ & _ & (i & e & _ & -> & _ & ->) & _). reflexivity.
Qed.

Lemma not_read : forall E d, default_readers E -> (forall p, ~ policy_doc E d p) ->
  exists e, read_policy E d = Raise e.
Proof.
  intros E d HE H. destruct (read_policy E d) as [p|e] eqn:Er; [|exists e; reflexivity].
  apply (read_policy_iff E HE) in Er. destruct (H p Er).
Qed.

Theorem C43_missing_attribute : forall E d, default_readers E ->
  xml_attr "PolicyId" d = None \/ xml_attr "RuleCombiningAlgId" d = None \/
  (exists k, In k (elems_called "Rule" d) /\ (xml_attr "RuleId" k = None \/ xml_attr "Effect" k = None)) ->
  exists e, read_policy E d = Raise e.
Proof.
  intros E d HE H. apply not_read; [exact HE|]. intros p Hd.
  destruct Hd as (_ & _ & id & ai & alg & de & xp & t & rs & _ & Hid & Hai & _ & _ & _ & _ & Hr & _).
  destruct H as [H|[H|(k & Hk & H)]]; [congruence|congruence|].
  apply (fun H => Forall2_in_l _ _ _ _ _ H _ Hk) in Hr. destruct Hr as (r & _ & Hr).
  destruct Hr as (_ & _ & (i & e & _ & _ & H1 & H2) & _). destruct H; congruence.
Qed.

Theorem C43_duplicate_rule_id : forall E d, default_readers E ->
  ~ NoDup (map (xml_attr "RuleId") (elems_called "Rule" d)) ->
  exists e, read_policy E d = Raise e.
Proof.
  intros E d HE H. destruct (read_policy E d) as [p|e] eqn:Er; [|exists e; reflexivity].
  destruct (C43_rules_in_order E d p HE Er) as (m & t & alg & rs & _ & _ & _ & _ & _ & Hm & _ & _ & Hnd).
  rewrite Hm in Hnd. destruct (H Hnd).
Qed.

Theorem C43_unsupported_child : forall E d c, default_readers E -> In c (elems d) ->
  ~ called_one_of ["Description"; "PolicyDefaults"; "Target"; "Rule"] c ->
  exists e, read_policy E d = Raise e.
Proof.
  intros E d c HE Hc H. apply not_read; [exact HE|]. intros p (_ & Ha & _). exact (H (Ha c Hc)).
Qed.

Theorem C43_unknown_algorithm : forall E d id, default_readers E ->
  xml_attr "RuleCombiningAlgId" d = Some id -> rule_algorithm id = None ->
  exists e, read_policy E d = Raise e.
Proof.
  intros E d id HE Hid Hn. apply not_read; [exact HE|]. intros p Hd.
  destruct Hd as (_ & _ & i & ai & alg & de & xp & t & rs & _ & _ & Hai & Ha & _). congruence.
Qed.

(** The standard readers are default readers. *)
Example C43_std_readers : default_readers std_renv.
Proof.
  intros dt reader H. unfold std_renv, re_readers in H.
  induction TYPE_TABLE as [|x l IH]; [discriminate H|]. cbn [map dict_get] in H.
  destruct (String.eqb dt _); [injection H as <-; reflexivity|exact (IH H)].
Qed.

(** A document with two rules, a comment, a namespace and all kinds of children. *)
Definition xe (name : string) (attrs : list (string * string)) (text : option string)
  (kids : list node) : node := el (Some "urn:oasis:names:tc:xacml:2.0:policy:schema:os") name attrs text kids.
Definition deny_overrides : string := "urn:oasis:names:tc:xacml:1.0:rule-combining-algorithm:deny-overrides".
Definition set_deny_overrides : string := "urn:oasis:names:tc:xacml:1.0:policy-combining-algorithm:deny-overrides".
Definition string_equal : string := "urn:oasis:names:tc:xacml:1.0:function:string-equal".
Definition one_and_only : string := "urn:oasis:names:tc:xacml:1.0:function:string-one-and-only".
Definition d_value (s : string) : node := xe "AttributeValue" [("DataType", xs "string")] (Some s) [].
Definition d_designator : node :=
  xe "SubjectAttributeDesignator" [("AttributeId", "role"); ("DataType", xs "string"); ("MustBePresent", "true")] None [].
Definition d_match : node :=
  xe "SubjectMatch" [("MatchId", string_equal)] None [d_value "staff"; d_designator].
Definition d_target : node :=
  xe "Target" [] None [xe "Subjects" [] None [xe "Subject" [] None [d_match]]].
Definition d_condition : node :=
  xe "Condition" [] None
    [xe "Apply" [("FunctionId", string_equal)] None
       [d_value "read"; xe "Apply" [("FunctionId", one_and_only)] None [d_designator]]].
Definition d_rule (id : string) : node :=
  xe "Rule" [("RuleId", id); ("Effect", "Permit")] None [d_target; Comment "note"; d_condition].
Definition d_policy (id : string) (rules : list node) : node :=
  xe "Policy" [("PolicyId", id); ("RuleCombiningAlgId", deny_overrides)] None
    (xe "Description" [] (Some " what it is ") [] :: d_target :: rules).

Example C43_read : exists m t rules,
  read_policy std_renv (d_policy "p1" [d_rule "a"; d_rule "b"]) = Ok (PPolicy m t (Some DenyOverrides) rules) /\
  map rl_id rules = [Some "a"; Some "b"] /\ pm_description m = Some "what it is" /\
  pm_version m = Some "2.0" /\ t <> None.
Proof. eexists _, _, _. split; [vm_compute; reflexivity|].
  split; [reflexivity|]. split; [reflexivity|]. split; [reflexivity|discriminate]. Qed.

Example C43_duplicate : exists e, read_policy std_renv (d_policy "p1" [d_rule "a"; d_rule "a"]) = Raise e.
Proof.
  apply C43_duplicate_rule_id; [exact C43_std_readers|]. vm_compute. intros H.
  inversion H as [|? ? Hn _]. apply Hn. left. reflexivity.
Qed.

(** ** C44: reading inverts writing *)

(** Every expressible policy is read back from its canonical document, in any
    namespace; the document is one an XML parser can deliver. *)
Theorem C44_policy_round_trip : forall E ns m t alg rules, default_readers E ->
  writable E (PPolicy m t alg rules) ->
  parsed (write_policy ns (PPolicy m t alg rules)) /\
  read_policy E (write_policy ns (PPolicy m t alg rules)) = Ok (PPolicy m t alg rules).
Proof.
  intros E ns m t alg rules HE Hw. split; [apply (parsed_policy E), Hw|].
  apply (read_policy_iff E HE). apply write_policy_doc, Hw.
Qed.

(** The same for trees of policies and policy sets with distinct names, with any finder
    (new, or holding policies with other names). *)
Theorem C44_tree_round_trip : forall E ns fetch fd K F p, default_readers E ->
  writable E p -> NoDup (map name_of (K ++ all_policies p)) ->
  parsed (write_policy ns p) /\
  exists limit0, forall limit, limit0 <= limit ->
    read_doc limit E fetch fd (write_policy ns p) (mkFstate (holding K) F) =
      Ok (p, mkFstate (holding (K ++ all_policies p)) F).
Proof.
  intros E ns fetch fd K F p HE Hw Hnd. split; [apply (parsed_policy E), Hw|].
  assert (NoDup (map name_of K)) as HndK.
  { rewrite map_app in Hnd. apply NoDup_app_split in Hnd. apply Hnd. }
  pose proof (write_reads E fetch fd ns p Hw K Hnd) as Hr.
  destruct (proj1 (complete_mut E HE fetch fd) _ _ _ _ _ Hr HndK) as (_ & L & HL).
  exists L. intros limit Hl. rewrite (HL limit Hl F), app_nil_r. reflexivity.
Qed.

(** Nothing else is ever read: a policy read from a parsed document is expressible. *)
Theorem C44_only_expressible : forall E d p, default_readers E -> parsed d ->
  read_policy E d = Ok p -> writable E p.
Proof.
  intros E d p HE Hp H. apply (read_policy_iff E HE) in H. exact (policy_writable E d p Hp H).
Qed.

Theorem C44_only_expressible_trees : forall E fetch fd limit K F d p st, default_readers E ->
  parsed d -> (forall u d', fetch u = Ok d' -> parsed d') -> Forall (writable E) K ->
  read_doc limit E fetch fd d (mkFstate (holding K) F) = Ok (p, st) -> writable E p.
Proof.
  intros E fetch fd limit K F d p st HE Hp Hf HK H.
  destruct (doc_sound E HE fetch fd limit d K F p st H) as (K' & U & Hr & _).
  pose proof (proj1 (reads_writable E fetch fd Hf) _ _ _ _ _ Hr Hp HK) as HK'.
  rewrite Forall_forall in HK'. apply HK'. exact (proj2 (proj1 (grows E fetch fd) _ _ _ _ _ Hr)).
Qed.

(** Documents are faithful: two expressible policies with the same canonical document
    are equal. *)
Theorem C44_written_differ : forall E ns p q, default_readers E ->
  writable E p -> writable E q ->
  NoDup (map name_of (all_policies p)) -> NoDup (map name_of (all_policies q)) ->
  write_policy ns p = write_policy ns q -> p = q.
Proof.
  intros E ns p q HE Hp Hq Np Nq Heq.
  destruct (C44_tree_round_trip E ns (fun _ => Raise EXMLParseError) LocalFinder [] [] p HE Hp Np) as (_ & L1 & H1).
  destruct (C44_tree_round_trip E ns (fun _ => Raise EXMLParseError) LocalFinder [] [] q HE Hq Nq) as (_ & L2 & H2).
  specialize (H1 (Nat.max L1 L2) (Nat.le_max_l _ _)). specialize (H2 (Nat.max L1 L2) (Nat.le_max_r _ _)).
  rewrite Heq in H1. rewrite H1 in H2. injection H2 as ->. reflexivity.
Qed.

(** The policy of the example document is expressible, so is a set of two of them. *)
Example C44_expressible : forall id, exists p,
  read_policy std_renv (d_policy id [d_rule "a"; d_rule "b"]) = Ok p /\ writable std_renv p.
Proof.
  intros id. eexists. split; [vm_compute; reflexivity|].
  apply (C44_only_expressible std_renv (d_policy id [d_rule "a"; d_rule "b"])).
  - exact C43_std_readers.
  - repeat first [ apply parsed_comment
                 | apply parsed_elem; [discriminate|cbn; repeat (constructor; [cbn; intuition discriminate|]); constructor|]
                 | apply Forall_cons | apply Forall_nil ].
  - vm_compute. reflexivity.
Qed.

(** ** C45: policy sets and references *)

(** A document can be read when, and only when, it can be read in the sense of the
    specification; then the result is the specified one.  [K] are the policies the
    finder holds before, [K'] after, [urls] the documents fetched on the way. *)
Theorem C45_read_iff : forall E fetch fd K F d p st, default_readers E ->
  NoDup (map name_of K) ->
  ((exists limit, read_doc limit E fetch fd d (mkFstate (holding K) F) = Ok (p, st)) <->
   (exists K' urls, reads E fetch fd d K K' urls p /\ st = mkFstate (holding K') (F ++ urls))).
Proof.
  intros E fetch fd K F d p st HE Hnd. split.
  - intros (l & H). exact (doc_sound E HE fetch fd l d K F p st H).
  - intros (K' & U & Hr & ->). destruct (proj1 (complete_mut E HE fetch fd) _ _ _ _ _ Hr Hnd) as (_ & L & HL).
    exists L. apply HL. constructor.
Qed.

(** What is read means the document: the children of a policy set stand one to one, in
    order, for its Policy, PolicySet and reference elements, and each reference is a
    policy (set) with the referenced id that the finder knows afterwards. *)
Theorem C45_members : forall E fetch fd limit K F d p st, default_readers E ->
  read_doc limit E fetch fd d (mkFstate (holding K) F) = Ok (p, st) ->
  exists K', fs_reg st = holding K' /\ incl K K' /\ In p K' /\
    doc_means E (fun q => In q K') d p.
Proof.
  intros E fetch fd limit K F d p st HE H.
  destruct (doc_sound E HE fetch fd limit d K F p st H) as (K' & U & Hr & ->). exists K'.
  destruct (proj1 (grows E fetch fd) _ _ _ _ _ Hr) as [G1 G2].
  split; [reflexivity|]. split; [exact G1|]. split; [exact G2|].
  exact (proj1 (meaning_mut E fetch fd) _ _ _ _ _ Hr K' (incl_refl _)).
Qed.

(** Whatever the finder gets to know was read from a Policy or PolicySet element of
    the document or of one of the documents fetched. *)
Theorem C45_known_from_documents : forall E fetch fd limit K F d p st, default_readers E ->
  read_doc limit E fetch fd d (mkFstate (holding K) F) = Ok (p, st) ->
  exists K' urls, st = mkFstate (holding K') (F ++ urls) /\ (fd = LocalFinder -> urls = []) /\
    forall q, In q K' -> In q K \/
      exists m, occurs fetch d urls m /\
        (called "Policy" m = true \/ called "PolicySet" m = true) /\
        doc_means E (fun x => In x K') m q.
Proof.
  intros E fetch fd limit K F d p st HE H.
  destruct (doc_sound E HE fetch fd limit d K F p st H) as (K' & U & Hr & ->). exists K', U.
  split; [reflexivity|]. split.
  - intros Hl. exact (proj1 (local_mut E fetch fd Hl) _ _ _ _ _ Hr).
  - exact (proj1 (source_mut E fetch fd) _ _ _ _ _ Hr K' (incl_refl _)).
Qed.

(** A reference to something that is neither known nor the id of an element anywhere
    in the documents makes the whole document be rejected. *)
Theorem C45_unresolvable_reference : forall E fetch fd limit K F d k x, default_readers E ->
  called "PolicySet" d = true -> In k (members d) -> wanted k = Some x ->
  ~ In x (map name_of K) ->
  (forall m, (inside m d \/ (fd <> LocalFinder /\ exists u d', fetch u = Ok d' /\ inside m d')) ->
     called "Policy" m = true \/ called "PolicySet" m = true -> root_name m <> x) ->
  exists e, read_doc limit E fetch fd d (mkFstate (holding K) F) = Raise e.
Proof.
  intros E fetch fd limit K F d k x HE Hc Hk Hw HK Hm.
  destruct (read_doc limit E fetch fd d (mkFstate (holding K) F)) as [[p st]|e] eqn:Er; [exfalso|exists e; reflexivity].
  destruct (C45_members E fetch fd limit K F d p st HE Er) as (K1 & Hreg & _ & _ & Hmean).
  destruct (C45_known_from_documents E fetch fd limit K F d p st HE Er) as (K' & urls & -> & Hl & Hsrc).
  cbn [fs_reg] in Hreg.
  assert (exists q, In q K1 /\ name_of q = x) as (q & Hq & Hn).
  { inversion Hmean as [? ? Hd|? id ai alg de t ps ? _ _ _ _ _ _ HF|? ? Hwd _]; subst.
    - exfalso. destruct Hd as (Hp & _). exact (policy_set_differ d Hp Hc).
    - apply (fun H => Forall2_in_l _ _ _ _ _ H _ Hk) in HF. destruct HF as (q & _ & Hq).
      exists q. inversion Hq as [? ? Hd|? ? ? ? ? ? ? Hs|? ? Hw' Hin]; subst.
      + exfalso. destruct Hd as (Hp & _). rewrite (wanted_policy_none k (or_introl Hp)) in Hw. discriminate Hw.
      + exfalso. rewrite (wanted_policy_none k (or_intror Hs)) in Hw. discriminate Hw.
      + split; [exact Hin|]. congruence.
    - exfalso. rewrite (wanted_policy_none d (or_intror Hc)) in Hwd. discriminate Hwd. }
  apply (holding_same _ _ Hreg) in Hq. destruct (Hsrc q Hq) as [H|(m & Ho & Hcm & Hd)].
  - apply HK. rewrite <- Hn. apply in_map, H.
  - apply (Hm m); [|exact Hcm|].
    + destruct Ho as [Hi|(u & d' & Hu & Hf & Hi)]; [left; exact Hi|right]. split.
      * intros Hfd. rewrite (Hl Hfd) in Hu. exact Hu.
      * exists u, d'. split; assumption.
    + rewrite <- Hn. symmetry. exact (means_root E _ m q Hcm Hd).
Qed.

(** ** C47: the URL finder *)

(** No document is fetched twice, and none whose policy (set) was already known. *)
Theorem C47_fetched_once : forall E fetch fd limit K F d p st, default_readers E ->
  read_doc limit E fetch fd d (mkFstate (holding K) F) = Ok (p, st) ->
  exists urls, fs_fetched st = F ++ urls /\ NoDup urls /\
    forall u, In u urls -> exists d', fetch u = Ok d' /\
      ~ In (root_name d') (map name_of K) /\ root_name d' <> root_name d.
Proof.
  intros E fetch fd limit K F d p st HE H.
  destruct (doc_sound E HE fetch fd limit d K F p st H) as (K' & U & Hr & ->). exists U.
  destruct (proj1 (once_mut E fetch fd) _ _ _ _ _ Hr) as [Hnd Hu].
  split; [reflexivity|]. split; [exact Hnd|]. intros u Hin. destruct (Hu u Hin) as (d' & H1 & H2 & _ & H3).
  exists d'. split; [exact H1|split; assumption].
Qed.

(** Also over several reads with the same finder. *)
Theorem C47_fetched_once_over_reads : forall E fetch fd limit limit2 K F d p st d2 p2 st2,
  default_readers E -> NoDup (map name_of K) -> NoDup F ->
  (forall u, In u F -> exists d', fetch u = Ok d' /\ In (root_name d') (map name_of K)) ->
  read_doc limit E fetch fd d (mkFstate (holding K) F) = Ok (p, st) ->
  read_doc limit2 E fetch fd d2 st = Ok (p2, st2) ->
  NoDup (fs_fetched st) /\ NoDup (fs_fetched st2).
Proof.
  intros E fetch fd l l2 K F d p st d2 p2 st2 HE Hnd HF Hin H1 H2.
  destruct (doc_sound E HE fetch fd l d K F p st H1) as (K' & U & Hr & ->).
  destruct (doc_sound E HE fetch fd l2 d2 K' (F ++ U) p2 st2 H2) as (K2 & U2 & Hr2 & ->).
  destruct (fetched_again E fetch fd d K K' U p F Hr HF Hin) as [N1 I1].
  destruct (fetched_again E fetch fd d2 K' K2 U2 p2 (F ++ U) Hr2 N1 I1) as [N2 _].
  split; [exact N1|exact N2].
Qed.

(** A reference is satisfied only by a policy (set) with that id. *)
Theorem C47_reference_by_id : forall E fetch base limit K F d p st, default_readers E ->
  read_doc limit E fetch (UrlFinder base) d (mkFstate (holding K) F) = Ok (p, st) ->
  called "PolicySet" d = true ->
  exists m t alg ps, p = PPolicySet m t alg ps /\
    Forall2 (fun k q => forall x, wanted k = Some x -> name_of q = x) (members d) ps.
Proof.
  intros E fetch base limit K F d p st HE H Hc.
  destruct (C45_members E fetch _ limit K F d p st HE H) as (K' & _ & _ & _ & Hmean).
  inversion Hmean as [? ? Hd|? id ai alg de t ps ? _ _ _ _ _ _ HF|? ? Hwd _]; subst.
  - exfalso. destruct Hd as (Hp & _). exact (policy_set_differ d Hp Hc).
  - eexists _, t, (Some alg), ps. split; [reflexivity|]. revert HF. clear. intros HF.
    induction HF as [|k q ks qs Hk _ IH]; constructor; [|exact IH]. intros x Hw.
    inversion Hk as [? ? Hd|? ? ? ? ? ? ? Hs|? ? Hw' Hin]; subst.
    + exfalso. destruct Hd as (Hp & _). rewrite (wanted_policy_none k (or_introl Hp)) in Hw. discriminate Hw.
    + exfalso. rewrite (wanted_policy_none k (or_intror Hs)) in Hw. discriminate Hw.
    + congruence.
  - exfalso. rewrite (wanted_policy_none d (or_intror Hc)) in Hwd. discriminate Hwd.
Qed.

(** The outcome does not depend on the recursion limit, unless it is the recursion
    error itself. *)
Theorem C47_limit_independent : forall E fetch fd l1 l2 d st,
  read_doc l1 E fetch fd d st <> Raise ERecursionError ->
  read_doc l2 E fetch fd d st <> Raise ERecursionError ->
  read_doc l1 E fetch fd d st = read_doc l2 E fetch fd d st.
Proof.
  intros E fetch fd l1 l2 d st H1 H2. destruct (Nat.le_ge_cases l1 l2) as [H|H].
  - symmetry. exact (agrees_doc E fetch fd l1 l2 H d st H1).
  - exact (agrees_doc E fetch fd l2 l1 H d st H2).
Qed.

(** No circular reference is accepted: let [X] be any set of policy set ids such that
    every PolicySet element with an id in [X], in the document or in any document on
    the web, refers to some policy set with an id in [X]; unless the finder already
    knows such a policy set, a document with an id in [X] is rejected, whatever the
    recursion limit. *)
Theorem C47_no_cycles : forall E fetch fd limit K F d x (X : string -> Prop), default_readers E ->
  (forall m y, inside m d \/ (exists u d', fetch u = Ok d' /\ inside m d') ->
     called "PolicySet" m = true -> xml_attr "PolicySetId" m = Some y -> X y ->
     exists k z, In k (elems m) /\ called "PolicySetIdReference" k = true /\ xml_text k = Some z /\ X z) ->
  (forall q y, In q K -> name_of q = SetName (Some y) -> ~ X y) ->
  called "PolicySet" d = true -> xml_attr "PolicySetId" d = Some x -> X x ->
  exists e, read_doc limit E fetch fd d (mkFstate (holding K) F) = Raise e.
Proof.
  intros E fetch fd limit K F d x X HE Hm HK Hc Hid Hx.
  destruct (read_doc limit E fetch fd d (mkFstate (holding K) F)) as [[p st]|e] eqn:Er; [exfalso|exists e; reflexivity].
  destruct (doc_sound E HE fetch fd limit d K F p st Er) as (K' & U & Hr & _).
  pose proof (root_of E fetch fd _ _ _ _ _ Hr) as Hroot.
  assert (root_name d = SetName (Some x)) as Hrd.
  { unfold root_name. destruct (called "Policy" d) eqn:Ep; [destruct (policy_set_differ d Ep Hc)|]. rewrite Hid. reflexivity. }
  refine (proj1 (cycle_mut E fetch fd X) _ _ _ _ _ Hr _ HK p x _ _ Hx).
  - intros m Ho y. apply Hm. destruct Ho as [Hi|(u & d' & _ & Hf & Hi)]; [left; exact Hi|right].
    exists u, d'. split; assumption.
  - exact (proj2 (proj1 (grows E fetch fd) _ _ _ _ _ Hr)).
  - rewrite Hroot. exact Hrd.
Qed.

(** A small web: a policy, a policy set that refers to it twice, and two policy sets
    that refer to each other. *)
Definition d_set (id : string) (kids : list node) : node :=
  xe "PolicySet" [("PolicySetId", id); ("PolicyCombiningAlgId", set_deny_overrides)] None kids.
Definition d_pref (r : string) : node := xe "PolicyIdReference" [] (Some r) [].
Definition d_sref (r : string) : node := xe "PolicySetIdReference" [] (Some r) [].
Definition web (url : string) : res node :=
  if String.eqb url "http://x/p" then Ok (d_policy "http://x/p" [d_rule "a"])
  else if String.eqb url "http://x/s" then Ok (d_set "http://x/s" [d_pref "http://x/p"])
  else if String.eqb url "http://x/a" then Ok (d_set "http://x/a" [d_sref "http://x/b"])
  else if String.eqb url "http://x/b" then Ok (d_set "http://x/b" [d_sref "http://x/a"])
  else Raise (EOther 7).
Definition d_main : node :=
  d_set "main" [d_policy "p1" [d_rule "a"]; d_sref "http://x/s"; d_pref "http://x/p"; d_set "inner" [d_pref "p1"]].

Example C45_read_main : exists m t alg m2 t2 alg2 m4 t4 alg4 p1 p2 st,
  read_doc 3 std_renv web (UrlFinder None) d_main fstate0 =
    Ok (PPolicySet m t alg [p1; PPolicySet m2 t2 alg2 [p2]; p2; PPolicySet m4 t4 alg4 [p1]], st) /\
  name_of p1 = PolicyName (Some "p1") /\ name_of p2 = PolicyName (Some "http://x/p") /\
  pm_id m2 = Some "http://x/s" /\ pm_id m4 = Some "inner" /\
  fs_fetched st = ["http://x/s"; "http://x/p"].
Proof. eexists _, _, _, _, _, _, _, _, _, _, _, _. split; [vm_compute; reflexivity|]. cbn. auto. Qed.

(** The local finder cannot resolve the references to other documents. *)
Example C45_local : exists e, read_doc 3 std_renv web LocalFinder d_main fstate0 = Raise e.
Proof.
  apply (C45_unresolvable_reference std_renv web LocalFinder 3 [] [] d_main
           (d_sref "http://x/s") (SetName (Some "http://x/s")) C43_std_readers).
  - reflexivity.
  - vm_compute. tauto.
  - reflexivity.
  - intros [].
  - intros m [Hi|[Hl _]] Hc; [|congruence].
    assert (forall n, inside m n -> (fix chk (n : node) : bool :=
      (negb (called "PolicySet" n) || negb (match xml_attr "PolicySetId" n with Some s => String.eqb s "http://x/s" | _ => false end)) &&
      match n with Elem _ _ _ ks => forallb chk ks | Comment _ => true end) n = true -> 
      called "Policy" m = true \/ called "PolicySet" m = true ->
      root_name m <> SetName (Some "http://x/s")) as HI.
    { clear. intros n Hn. induction Hn as [|n k Hk Hn IH]; intros Hchk Hc.
      - unfold root_name. destruct (called "Policy" m) eqn:Ep; [discriminate|].
        destruct Hc as [Hc|Hc]; [discriminate|]. intros [= Heq]. destruct m as [tag a t ks|t]; [|discriminate].
        apply Bool.andb_true_iff in Hchk. destruct Hchk as [Hchk _]. rewrite Hc, Heq in Hchk. discriminate.
      - apply IH; [|exact Hc]. destruct n as [tag a t ks|t]; [|destruct Hk].
        apply Bool.andb_true_iff in Hchk. destruct Hchk as [_ Hchk]. rewrite forallb_forall in Hchk.
        apply Hchk. apply filter_In in Hk. apply Hk. }
    apply (HI d_main); [exact Hi|vm_compute; reflexivity|exact Hc].
Qed.

(** The two sets that refer to each other are rejected at every limit. *)
Example C47_cycle : forall limit, exists e,
  read_doc limit std_renv web (UrlFinder None) (d_set "http://x/a" [d_sref "http://x/b"]) fstate0 = Raise e.
Proof.
  intros limit.
  apply (C47_no_cycles std_renv web (UrlFinder None) limit [] [] _ "http://x/a"
           (fun y => y = "http://x/a" \/ y = "http://x/b") C43_std_readers).
  - assert (forall m id r, inside m (d_set id [d_sref r]) -> m = d_set id [d_sref r] \/ m = d_sref r) as H1.
    { intros m id r H. inversion H as [|n k Hk Hi]; subst; [left; reflexivity|].
      cbn in Hk. destruct Hk as [<-|[]]. right. inversion Hi as [|n k Hk _]; subst; [reflexivity|destruct Hk]. }
    assert (forall m id rs, inside m (d_policy id rs) -> (forall r, In r rs -> exists i, r = d_rule i) ->
       called "PolicySet" m = true -> False) as H2.
    { intros m id rs H Hrs Hc.
      assert (forall n, inside m n -> (fix chk (n : node) : bool := negb (called "PolicySet" n) &&
        match n with Elem _ _ _ ks => forallb chk ks | Comment _ => true end) n = true -> False) as HI.
      { clear -Hc. intros n Hn. induction Hn as [|n k Hk Hn IH]; intros Hchk.
        - destruct m as [tag a t ks|t]; [|discriminate]. rewrite Hc in Hchk. discriminate.
        - apply IH. destruct n as [tag a t ks|t]; [|destruct Hk].
          apply Bool.andb_true_iff in Hchk. destruct Hchk as [_ Hchk]. rewrite forallb_forall in Hchk.
          apply Hchk. apply filter_In in Hk. apply Hk. }
      apply (HI _ H). cbn. rewrite ?Bool.andb_true_r. rewrite forallb_forall. intros r Hr.
      destruct (Hrs r Hr) as (i & ->). reflexivity. }
    assert (forall m id r, called "PolicySet" m = true -> m = d_set id [d_sref r] \/ m = d_sref r ->
      m = d_set id [d_sref r]) as H3.
    { intros m id r Hc [ -> | -> ]; [reflexivity|discriminate Hc]. }
    intros m y Hi Hc Hy HX.
    assert (m = d_set "http://x/a" [d_sref "http://x/b"] \/ m = d_set "http://x/b" [d_sref "http://x/a"] \/
            m = d_set "http://x/s" [d_pref "http://x/p"]) as Hm.
    { destruct Hi as [Hi|(u & d' & Hf & Hi)]; [left; apply H3, H1; assumption|].
      unfold web in Hf. destruct (String.eqb u "http://x/p").
      { injection Hf as <-. exfalso. apply (H2 m _ _ Hi); [|exact Hc]. intros r [<-|[]]. exists "a". reflexivity. }
      destruct (String.eqb u "http://x/s").
      { injection Hf as <-. right. right. inversion Hi as [|n k Hk Hi']; subst; [reflexivity|].
        cbn in Hk. destruct Hk as [<-|[]]. inversion Hi' as [|n k Hk _]; subst; [discriminate Hc|destruct Hk]. }
      destruct (String.eqb u "http://x/a").
      { injection Hf as <-. left. apply H3, H1; assumption. }
      destruct (String.eqb u "http://x/b"); [|discriminate Hf].
      injection Hf as <-. right. left. apply H3, H1; assumption. }
    destruct Hm as [ -> | [ -> | -> ] ].
    + exists (d_sref "http://x/b"), "http://x/b". cbn. auto.
    + exists (d_sref "http://x/a"), "http://x/a". cbn. auto.
    + exfalso. cbn in Hy. injection Hy as <-. destruct HX; discriminate.
  - intros q y [].
  - reflexivity.
  - reflexivity.
  - left. reflexivity.
Qed.

(** Too small a limit gives the recursion error, any larger one the result. *)
Example C47_limits :
  read_doc 2 std_renv web (UrlFinder None) d_main fstate0 = Raise ERecursionError /\
  (forall limit, 3 <= limit ->
     read_doc limit std_renv web (UrlFinder None) d_main fstate0 =
     read_doc 3 std_renv web (UrlFinder None) d_main fstate0).
Proof.
  split; [vm_compute; reflexivity|]. intros limit Hl.
  apply (agrees_doc std_renv web (UrlFinder None) 3 limit Hl). vm_compute. discriminate.
Qed.

Example C44_expressible_set : exists p st,
  read_doc 1 std_renv web LocalFinder
    (d_set "s" [d_policy "p1" [d_rule "a"]; d_set "t" [d_policy "p2" []]; d_policy "p3" [d_rule "b"]]) fstate0 = Ok (p, st) /\
  writable std_renv p /\ NoDup (map name_of (all_policies p)) /\ length (all_policies p) = 5.
Proof.
  eexists _, _. split; [vm_compute; reflexivity|]. split; [|split].
  - eapply (C44_only_expressible_trees std_renv (fun _ => Raise (EOther 7)) LocalFinder 1 [] []
      (d_set "s" [d_policy "p1" [d_rule "a"]; d_set "t" [d_policy "p2" []]; d_policy "p3" [d_rule "b"]])).
    + exact C43_std_readers.
    + repeat first [ apply parsed_comment
                 | apply parsed_elem; [discriminate|cbn; repeat (constructor; [cbn; intuition discriminate|]); constructor|]
                 | apply Forall_cons | apply Forall_nil ].
    + discriminate.
    + constructor.
    + vm_compute. reflexivity.
  - cbn. repeat (constructor; [cbn; intuition discriminate|]). constructor.
  - reflexivity.
Qed.

Print Assumptions C43_read_policy_iff.
Print Assumptions C43_rules_in_order.
Print Assumptions C43_missing_attribute.
Print Assumptions C43_duplicate_rule_id.
Print Assumptions C43_unsupported_child.
Print Assumptions C43_unknown_algorithm.
Print Assumptions C44_policy_round_trip.
Print Assumptions C44_tree_round_trip.
Print Assumptions C44_only_expressible.
Print Assumptions C44_only_expressible_trees.
Print Assumptions C44_written_differ.
Print Assumptions C45_read_iff.
Print Assumptions C45_members.
Print Assumptions C45_known_from_documents.
Print Assumptions C45_unresolvable_reference.
Print Assumptions C47_fetched_once.
Print Assumptions C47_fetched_once_over_reads.
Print Assumptions C47_reference_by_id.
Print Assumptions C47_limit_independent.
Print Assumptions C47_no_cycles.
