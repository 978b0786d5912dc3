(** What policy documents mean, stated on the element tree. *)
From Verif Require Import Readers SpecText SpecSetters.

(** ** Elements *)

(** [s] ends with [t]. *)
Fixpoint suffix (t s : string) : bool :=
  String.eqb s t || match s with EmptyString => false | String _ s' => suffix t s' end.

(** [n] is an element with this name, in whatever namespace: its tag is the name or
    ends with a closing brace and the name. *)
Definition called (name : string) (n : node) : bool :=
  match n with
  | Elem tag _ _ _ => String.eqb tag name || suffix ("}" ++ name) tag
  | Comment _ => false
  end.
Definition called_one_of (names : list string) (n : node) : Prop :=
  exists name, In name names /\ called name n = true.

Definition xml_attr (name : string) (n : node) : option string :=
  match n with Elem _ attrs _ _ => dict_get name attrs | Comment _ => None end.
Definition xml_text (n : node) : option string :=
  match n with Elem _ _ text _ => text | Comment _ => None end.
(** The children that are elements. *)
Definition elems (n : node) : list node :=
  match n with
  | Elem _ _ _ kids =>
      filter (fun k => match k with Elem _ _ _ _ => true | Comment _ => false end) kids
  | Comment _ => []
  end.
Definition elems_called (name : string) (n : node) : list node := filter (called name) (elems n).

(** [o] is what the last of the elements [l] means, None if there is none; the
    others have a meaning too. *)
Definition last_one {A} (means : node -> A -> Prop) (l : list node) (o : option A) : Prop :=
  (forall k, In k l -> exists a, means k a) /\
  match rev l with
  | [] => o = None
  | k :: _ => exists a, o = Some a /\ means k a
  end.

(** ** Expressions *)

(** A data type whose values are read as the text of the element: it has a class for
    Python strings. *)
Definition string_type (E : renv) (dt : string) (c : avclass) : Prop :=
  dict_get dt (re_cm E) = Some c /\ ac_type c = NTStr /\
  dict_get dt (re_readers E) <> None.

(** The content readers are the default ones. *)
Definition default_readers (E : renv) : Prop :=
  forall dt reader, dict_get dt (re_readers E) = Some reader -> reader = default_dtreader.

(** The function map has an implementation of [id]. *)
Definition implements (E : renv) (id : string) (f : fn) : Prop :=
  fst (fm_get (re_cm E) id (re_fmap E)) = Ok (Some (FImpl f)).

Definition value_doc (E : renv) (n : node) (v : attrval) : Prop :=
  called "AttributeValue" n = true /\
  exists dt c s, xml_attr "DataType" n = Some dt /\ string_type E dt c /\
    xml_text n = Some s /\ v = mkAV c dt (NStr s).

(** A boolean written as text, see C52. *)
Definition truth (s : string) : bool := str_in (py_lower s) ["yes"; "true"; "t"; "1"].

Definition designator_tag (k : designator_kind) : string :=
  match k with
  | DSubject => "SubjectAttributeDesignator"
  | DResource => "ResourceAttributeDesignator"
  | DAction => "ActionAttributeDesignator"
  | DEnvironment => "EnvironmentAttributeDesignator"
  end.

Definition designator_doc (n : node) (d : designator) : Prop :=
  called (designator_tag (dg_kind d)) n = true /\
  dg_kind d <> DEnvironment /\
  dg_dataType d = xml_attr "DataType" n /\ dg_dataType d <> None /\
  dg_id d = xml_attr "AttributeId" n /\ dg_id d <> None /\
  dg_issuer d = xml_attr "Issuer" n /\
  dg_mustBePresent d = match xml_attr "MustBePresent" n with Some s => truth s | None => false end.

Definition selector_doc (n : node) (s : selector) : Prop :=
  called "AttributeSelector" n = true /\
  sl_dataType s = xml_attr "DataType" n /\ sl_dataType s <> None /\
  sl_path s = xml_attr "RequestContextPath" n /\ sl_path s <> None /\
  sl_mustBePresent s = option_map truth (xml_attr "MustBePresent" n).

Inductive expr_doc (E : renv) : node -> expr -> Prop :=
| doc_value : forall n v, value_doc E n v -> expr_doc E n (XValue v)
| doc_designator : forall n d, designator_doc n d -> expr_doc E n (XDesignator d)
| doc_selector : forall n s, selector_doc n s -> expr_doc E n (XSelector s)
| doc_apply : forall n id f args,
    called "Apply" n = true -> xml_attr "FunctionId" n = Some id -> implements E id f ->
    Forall2 (expr_doc E) (elems n) args ->
    expr_doc E n (XApply (Some id) (Some f) args).

(** A condition has one child, which is an application. *)
Definition condition_doc (E : renv) (n : node) (e : expr) : Prop :=
  called "Condition" n = true /\
  exists k, elems n = [k] /\ called "Apply" k = true /\ expr_doc E k e.

(** ** Targets *)
Definition match_tag (k : designator_kind) : string :=
  match k with
  | DSubject => "SubjectMatch" | DResource => "ResourceMatch"
  | DAction => "ActionMatch" | DEnvironment => "EnvironmentMatch"
  end.
Definition match_doc (E : renv) (k : designator_kind) (n : node) (m : matchel) : Prop :=
  k <> DEnvironment /\
  called (match_tag k) n = true /\
  (forall c, In c (elems n) ->
     called_one_of ["AttributeValue"; designator_tag k; "AttributeSelector"] c) /\
  (elems_called (designator_tag k) n = [] \/ elems_called "AttributeSelector" n = []) /\
  (exists id f, mt_id m = Some id /\ mt_fn m = Some f /\
     xml_attr "MatchId" n = Some id /\ implements E id f) /\
  last_one (value_doc E) (elems_called "AttributeValue" n) (mt_value m) /\
  last_one (fun c d => designator_doc c d /\ dg_kind d = k)
    (elems_called (designator_tag k) n) (mt_designator m) /\
  last_one selector_doc (elems_called "AttributeSelector" n) (mt_selector m).

Definition child_tag (k : designator_kind) : string :=
  match k with
  | DSubject => "Subject" | DResource => "Resource"
  | DAction => "Action" | DEnvironment => "Environment"
  end.
Definition container_tag (k : designator_kind) : string :=
  match k with
  | DSubject => "Subjects" | DResource => "Resources"
  | DAction => "Actions" | DEnvironment => "Environments"
  end.
(** A Subject (Resource, Action, Environment) element: one match per child. *)
Definition child_doc (E : renv) (k : designator_kind) (n : node) (ms : list matchel) : Prop :=
  called (child_tag k) n = true /\ Forall2 (match_doc E k) (elems n) ms.
Definition target_part (k : designator_kind) (t : target) : list (list matchel) :=
  match k with
  | DSubject => tg_subjects t | DResource => tg_resources t
  | DAction => tg_actions t | DEnvironment => tg_environments t
  end.
(** A target: for each category, the children of its containers, in order. *)
Definition target_doc (E : renv) (n : node) (t : target) : Prop :=
  called "Target" n = true /\
  (forall c, In c (elems n) -> called_one_of ["Subjects"; "Resources"; "Actions"; "Environments"] c) /\
  forall k, Forall2 (child_doc E k) (flat_map elems (elems_called (container_tag k) n))
              (target_part k t).

(** ** Rules and policies *)
Definition effect_name (e : effect) : string :=
  match e with EffPermit => "Permit" | EffDeny => "Deny" end.

(** The description: the trimmed text of the last Description element with text. *)
Definition description_doc (n : node) (o : option string) : Prop :=
  match last_some (map xml_text (elems_called "Description" n)), o with
  | None, None => True
  | Some text, Some t => trimmed text t
  | _, _ => False
  end.

Definition rule_doc (E : renv) (n : node) (r : rule) : Prop :=
  called "Rule" n = true /\
  (forall c, In c (elems n) -> called_one_of ["Description"; "Condition"; "Target"] c) /\
  (exists id e, rl_id r = Some id /\ rl_effect r = Some e /\
     xml_attr "RuleId" n = Some id /\ xml_attr "Effect" n = Some (effect_name e)) /\
  last_one (target_doc E) (elems_called "Target" n) (rl_target r) /\
  (exists c, last_one (condition_doc E) (elems_called "Condition" n) c /\
     rl_condition r = option_map Some c) /\
  description_doc n (rl_description r).

Definition defaults_doc (n : node) (version : string) : Prop :=
  called "PolicyDefaults" n = true /\
  exists tag attrs text k, n = Elem tag attrs text [k] /\
    called "XPathVersion" k = true /\ xml_text k = Some version.

(** The version attribute; 2.0 if it is missing or empty. *)
Definition version_doc (n : node) : string :=
  match xml_attr "Version" n with
  | None | Some "" => "2.0"
  | Some v => v
  end.

Definition policy_doc (E : renv) (n : node) (p : policybase) : Prop :=
  called "Policy" n = true /\
  (forall c, In c (elems n) -> called_one_of ["Description"; "PolicyDefaults"; "Target"; "Rule"] c) /\
  exists id algId alg description xpath target rules,
    p = PPolicy (mkMeta (Some id) (Some (version_doc n)) (Some algId) description xpath)
          target (Some alg) rules /\
    xml_attr "PolicyId" n = Some id /\
    xml_attr "RuleCombiningAlgId" n = Some algId /\ rule_algorithm algId = Some alg /\
    description_doc n description /\
    last_one defaults_doc (elems_called "PolicyDefaults" n) xpath /\
    last_one (target_doc E) (elems_called "Target" n) target /\
    Forall2 (rule_doc E) (elems_called "Rule" n) rules /\
    NoDup (map rl_id rules).

(** ** C44: canonical documents *)

(** What an XML parser delivers: empty text is absent, attribute names differ. *)
Inductive parsed : node -> Prop :=
| parsed_elem : forall tag attrs text kids,
    text <> Some "" -> NoDup (map fst attrs) -> Forall parsed kids ->
    parsed (Elem tag attrs text kids)
| parsed_comment : forall text, parsed (Comment text).

(** The canonical document of a policy, written with namespace [ns]. *)
Section Write.
Variable ns : option string.

Definition el (name : string) (attrs : list (string * string)) (text : option string)
  (kids : list node) : node :=
  Elem (match ns with Some u => "{" ++ u ++ "}" ++ name | None => name end) attrs text kids.

Definition opt_attr (name : string) (v : option string) : list (string * string) :=
  match v with Some s => [(name, s)] | None => [] end.
Definition opt_el {A} (write : A -> node) (x : option A) : list node :=
  match x with Some a => [write a] | None => [] end.
Definition bool_text (b : bool) : string := if b then "true" else "false".

Definition write_value (v : attrval) : node :=
  el "AttributeValue" [("DataType", av_dataType v)]
    (match av_value v with NStr s => Some s | _ => None end) [].
Definition write_designator (d : designator) : node :=
  el (designator_tag (dg_kind d))
    (opt_attr "AttributeId" (dg_id d) ++ opt_attr "DataType" (dg_dataType d) ++
     opt_attr "Issuer" (dg_issuer d) ++ [("MustBePresent", bool_text (dg_mustBePresent d))]) None [].
Definition write_selector (s : selector) : node :=
  el "AttributeSelector"
    (opt_attr "RequestContextPath" (sl_path s) ++ opt_attr "DataType" (sl_dataType s) ++
     opt_attr "MustBePresent" (option_map bool_text (sl_mustBePresent s))) None [].
Fixpoint write_expr (e : expr) : node :=
  match e with
  | XApply id _ args => el "Apply" (opt_attr "FunctionId" id) None (map write_expr args)
  | XValue v => write_value v
  | XDesignator d => write_designator d
  | XSelector s => write_selector s
  end.
Definition write_match (k : designator_kind) (m : matchel) : node :=
  el (match_tag k) (opt_attr "MatchId" (mt_id m)) None
    (opt_el write_value (mt_value m) ++ opt_el write_designator (mt_designator m) ++
     opt_el write_selector (mt_selector m)).
Definition write_child (k : designator_kind) (ms : list matchel) : node :=
  el (child_tag k) [] None (map (write_match k) ms).
Definition write_container (k : designator_kind) (l : list (list matchel)) : list node :=
  match l with [] => [] | _ => [el (container_tag k) [] None (map (write_child k) l)] end.
Definition write_target (t : target) : node :=
  el "Target" [] None
    (flat_map (fun k => write_container k (target_part k t))
       [DSubject; DResource; DAction; DEnvironment]).
(** An empty description is written as a blank. *)
Definition write_description (t : string) : node :=
  el "Description" [] (Some (match t with EmptyString => " " | _ => t end)) [].
Definition write_condition (e : expr) : node := el "Condition" [] None [write_expr e].
Definition write_rule (r : rule) : node :=
  el "Rule" (opt_attr "RuleId" (rl_id r) ++ opt_attr "Effect" (option_map effect_name (rl_effect r))) None
    (opt_el write_description (rl_description r) ++ opt_el write_target (rl_target r) ++
     match rl_condition r with Some (Some e) => [write_condition e] | _ => [] end).
Definition write_defaults (version : string) : node :=
  el "PolicyDefaults" [] None [el "XPathVersion" [] (Some version) []].
Fixpoint write_policy (p : policybase) : node :=
  match p with
  | PPolicy m t _ rules =>
      el "Policy" (opt_attr "PolicyId" (pm_id m) ++ opt_attr "Version" (pm_version m) ++
                   opt_attr "RuleCombiningAlgId" (pm_algId m)) None
        (opt_el write_description (pm_description m) ++
         opt_el write_defaults (pm_xpathVersion m) ++ opt_el write_target t ++
         map write_rule rules)
  | PPolicySet m t _ ps =>
      el "PolicySet" (opt_attr "PolicySetId" (pm_id m) ++ opt_attr "Version" (pm_version m) ++
                      opt_attr "PolicyCombiningAlgId" (pm_algId m)) None
        (opt_el write_description (pm_description m) ++ opt_el write_target t ++
         map write_policy ps)
  end.
End Write.

(** The policies that can be expressed in a document. *)
Definition writable_value (E : renv) (v : attrval) : Prop :=
  string_type E (av_dataType v) (av_class v) /\ exists s, av_value v = NStr s /\ s <> "".
Definition writable_designator (d : designator) : Prop :=
  dg_kind d <> DEnvironment /\ dg_id d <> None /\ dg_dataType d <> None.
Definition writable_selector (s : selector) : Prop := sl_path s <> None /\ sl_dataType s <> None.
Inductive writable_expr (E : renv) : expr -> Prop :=
| wr_value : forall v, writable_value E v -> writable_expr E (XValue v)
| wr_designator : forall d, writable_designator d -> writable_expr E (XDesignator d)
| wr_selector : forall s, writable_selector s -> writable_expr E (XSelector s)
| wr_apply : forall id f args, implements E id f -> Forall (writable_expr E) args ->
    writable_expr E (XApply (Some id) (Some f) args).
Definition writable_match (E : renv) (k : designator_kind) (m : matchel) : Prop :=
  k <> DEnvironment /\
  (exists id f, mt_id m = Some id /\ mt_fn m = Some f /\ implements E id f) /\
  (forall v, mt_value m = Some v -> writable_value E v) /\
  (forall d, mt_designator m = Some d -> writable_designator d /\ dg_kind d = k) /\
  (forall s, mt_selector m = Some s -> writable_selector s) /\
  (mt_designator m = None \/ mt_selector m = None).
Definition writable_target (E : renv) (t : target) : Prop :=
  forall k ms m, In ms (target_part k t) -> In m ms -> writable_match E k m.
Definition writable_description (d : option string) : Prop := forall t, d = Some t -> trimmed t t.
Definition writable_rule (E : renv) (r : rule) : Prop :=
  rl_id r <> None /\ rl_effect r <> None /\
  (forall t, rl_target r = Some t -> writable_target E t) /\
  (forall c, rl_condition r = Some c ->
     exists id f args, c = Some (XApply id f args) /\ writable_expr E (XApply id f args)) /\
  writable_description (rl_description r).
Definition writable_meta (m : pmeta) : Prop :=
  pm_id m <> None /\ pm_algId m <> None /\
  (exists v, pm_version m = Some v /\ v <> "") /\
  writable_description (pm_description m).
Inductive writable (E : renv) : policybase -> Prop :=
| wr_policy : forall m t alg rules,
    writable_meta m -> pm_xpathVersion m <> Some "" ->
    (forall id, pm_algId m = Some id -> alg = rule_algorithm id /\ alg <> None) ->
    (forall t', t = Some t' -> writable_target E t') ->
    Forall (writable_rule E) rules -> NoDup (map rl_id rules) ->
    writable E (PPolicy m t alg rules)
| wr_set : forall m t alg ps,
    writable_meta m -> pm_xpathVersion m = None ->
    (forall id, pm_algId m = Some id -> alg = policy_algorithm id /\ alg <> None) ->
    (forall t', t = Some t' -> writable_target E t') ->
    Forall (writable E) ps ->
    writable E (PPolicySet m t alg ps).

(** ** C45 and C47: policy sets *)

(** Policies and policy sets have separate names. *)
Inductive name : Type := PolicyName (id : option string) | SetName (id : option string).
Definition name_of (p : policybase) : name :=
  match p with
  | PPolicy m _ _ _ => PolicyName (pm_id m)
  | PPolicySet m _ _ _ => SetName (pm_id m)
  end.

(** A finder holding the policies and policy sets [known]. *)
Definition holding (known : list policybase) : registry :=
  mkRegistry
    (map (fun p => (id_of p, p))
       (filter (fun p => match p with PPolicy _ _ _ _ => true | _ => false end) known))
    (map (fun p => (id_of p, p))
       (filter (fun p => match p with PPolicySet _ _ _ _ => true | _ => false end) known)).

(** The children of a policy set element that stand for a policy or policy set. *)
Definition members (n : node) : list node :=
  filter (fun k => called "Policy" k || called "PolicySet" k ||
                   called "PolicyIdReference" k || called "PolicySetIdReference" k) (elems n).
(** What a reference element asks for. *)
Definition wanted (k : node) : option name :=
  if called "PolicyIdReference" k then Some (PolicyName (xml_text k))
  else if called "PolicySetIdReference" k then Some (SetName (xml_text k))
  else None.

Definition allowed_in_set (n : node) : Prop :=
  forall c, In c (elems n) ->
    called_one_of ["Description"; "Target"; "Policy"; "PolicySet"; "PolicyIdReference";
                   "PolicySetIdReference"] c.

(** The meaning of a document given the policies that references may stand for: one
    member per Policy, PolicySet or reference child, in order. *)
Inductive doc_means (E : renv) (known : policybase -> Prop) : node -> policybase -> Prop :=
| means_policy : forall n p, policy_doc E n p -> doc_means E known n p
| means_set : forall n id algId alg description target ps,
    called "PolicySet" n = true -> allowed_in_set n ->
    xml_attr "PolicySetId" n = Some id ->
    xml_attr "PolicyCombiningAlgId" n = Some algId -> policy_algorithm algId = Some alg ->
    description_doc n description ->
    last_one (target_doc E) (elems_called "Target" n) target ->
    Forall2 (doc_means E known) (members n) ps ->
    doc_means E known n
      (PPolicySet (mkMeta (Some id) (Some (version_doc n)) (Some algId) description None)
         target (Some alg) ps)
| means_reference : forall n p,
    wanted n = Some (name_of p) -> known p -> doc_means E known n p.

(** [m] is [n] or an element somewhere inside it. *)
Inductive inside (m : node) : node -> Prop :=
| inside_self : inside m m
| inside_kid : forall n k, In k (elems n) -> inside m k -> inside m n.

(** The name of the policy or policy set in a document. *)
Definition root_name (d : node) : name :=
  if called "Policy" d then PolicyName (xml_attr "PolicyId" d) else SetName (xml_attr "PolicySetId" d).
(** [m] is an element inside [n] or inside a document at one of the [urls]. *)
Definition occurs (fetch : string -> res node) (n : node) (urls : list string) (m : node) : Prop :=
  inside m n \/ exists u d, In u urls /\ fetch u = Ok d /\ inside m d.

(** Reading in order, with what the finder knows: [reads n K K' urls p] says that the
    document [n], when the policies [K] are known, is read as [p]; that fetches
    [urls], in this order, after which the policies [K'] are known.
    - every policy and policy set read gets known, and must not have the name of
      one that is;
    - a reference is what is known with that name; with a URL finder, if nothing is,
      the document it denotes (see C48) is fetched and read first. *)
Section Reads.
Variable E : renv.
Variable fetch : string -> res node.
Variable fd : finder.

Inductive reads : node -> list policybase -> list policybase -> list string -> policybase -> Prop :=
| reads_policy : forall n K p,
    policy_doc E n p -> ~ In (name_of p) (map name_of K) ->
    reads n K (K ++ [p]) [] p
| reads_set : forall n K K' urls id algId alg description target ps p,
    called "PolicySet" n = true -> allowed_in_set n ->
    xml_attr "PolicySetId" n = Some id ->
    xml_attr "PolicyCombiningAlgId" n = Some algId -> policy_algorithm algId = Some alg ->
    description_doc n description ->
    last_one (target_doc E) (elems_called "Target" n) target ->
    reads_members (members n) K K' urls ps ->
    p = PPolicySet (mkMeta (Some id) (Some (version_doc n)) (Some algId) description None)
          target (Some alg) ps ->
    ~ In (name_of p) (map name_of K') ->
    reads n K (K' ++ [p]) urls p
with reads_members : list node -> list policybase -> list policybase -> list string ->
                     list policybase -> Prop :=
| reads_none : forall K, reads_members [] K K [] []
| reads_more : forall k ks K K1 K2 urls urls' p ps,
    reads_member k K K1 urls p -> reads_members ks K1 K2 urls' ps ->
    reads_members (k :: ks) K K2 (urls ++ urls') (p :: ps)
with reads_member : node -> list policybase -> list policybase -> list string -> policybase -> Prop :=
| reads_inline : forall k K K' urls p,
    wanted k = None -> reads k K K' urls p -> reads_member k K K' urls p
| reads_known : forall k K p,
    wanted k = Some (name_of p) -> In p K -> reads_member k K K [] p
| reads_fetched : forall base k r url d K K' urls q p,
    fd = UrlFinder base ->
    xml_text k = Some r -> wanted k = Some (name_of p) -> ~ In (name_of p) (map name_of K) ->
    make_url base r = Ok url -> fetch url = Ok d ->
    reads d K K' urls q -> In p K' ->
    reads_member k K K' (url :: urls) p.
End Reads.

(** The policies and policy sets in a tree, members first. *)
Fixpoint all_policies (p : policybase) : list policybase :=
  match p with
  | PPolicy _ _ _ _ => [p]
  | PPolicySet _ _ _ ps => flat_map all_policies ps ++ [p]
  end.
