(** Access lists: what they say, written without regard to policies, and the policy and
    request documents in which they are put to a decision point. *)
From Verif Require Import Service SpecService.

(** ** What an access list says *)

(** A requirement on the attributes of the subject, the resource or the action of an
    access: some value of the attribute is this text, or matches this pattern. *)
Inductive manner : Type := Exactly | Matching.
Record requirement : Type := mkRequirement {
  q_attribute : string;
  q_manner : manner;
  q_text : string
}.

(** A line of an access list: what it says (Permit or Deny), and whom, what and which
    actions it is about; of several alternatives one has to be met entirely, and no
    alternatives mean no restriction. *)
Record line : Type := mkLine {
  ln_name : string;
  ln_says : effect;
  ln_subject : list (list requirement);
  ln_resource : list (list requirement);
  ln_action : list (list requirement)
}.

(** An access: the attributes of who asks, of the resource and of the action. *)
Record access : Type := mkAccess {
  ax_subject : list (string * string);
  ax_resource : list (string * string);
  ax_action : list (string * string)
}.

Section Meaning.
(** Which texts a pattern matches. *)
Variable matches : string -> string -> bool.
(** The values of subject attributes known to the attribute source. *)
Variable knows : string -> list string.

Definition meets (facts : string -> string -> Prop) (q : requirement) : Prop :=
  exists v, facts (q_attribute q) v /\
    match q_manner q with Exactly => v = q_text q | Matching => matches (q_text q) v = true end.
Definition restricted_to (facts : string -> string -> Prop) (alternatives : list (list requirement)) : Prop :=
  alternatives = [] \/ exists qs, In qs alternatives /\ forall q, In q qs -> meets facts q.

Definition about (a : access) (l : line) : Prop :=
  restricted_to (fun id v => In (id, v) (ax_subject a) \/ In v (knows id)) (ln_subject l) /\
  restricted_to (fun id v => In (id, v) (ax_resource a)) (ln_resource l) /\
  restricted_to (fun id v => In (id, v) (ax_action a)) (ln_action l).

Definition verdict (e : effect) : decision := match e with EffPermit => Permit | EffDeny => Deny end.

(** What the lines say on an access: under first-applicable, what the first line about
    it says; under an override, the overriding effect if some line about it says so,
    else the other one if some line about it says so; NotApplicable if no line is
    about it. *)
Definition someone_says (lines : list line) (a : access) (e : effect) : Prop :=
  exists l, In l lines /\ about a l /\ ln_says l = e.
Inductive list_says (lines : list line) (a : access) : comb_alg -> decision -> Prop :=
| says_first : forall before l after, lines = before ++ l :: after ->
    (forall l', In l' before -> ~ about a l') -> about a l ->
    list_says lines a FirstApplicable (verdict (ln_says l))
| says_deny : someone_says lines a EffDeny -> list_says lines a DenyOverrides Deny
| says_permit_only : ~ someone_says lines a EffDeny -> someone_says lines a EffPermit ->
    list_says lines a DenyOverrides Permit
| says_permit : someone_says lines a EffPermit -> list_says lines a PermitOverrides Permit
| says_deny_only : ~ someone_says lines a EffPermit -> someone_says lines a EffDeny ->
    list_says lines a PermitOverrides Deny
| says_nothing : forall alg, (forall l, In l lines -> ~ about a l) -> list_says lines a alg NotApplicable.
End Meaning.

(** ** Documents *)

Definition xsd_string : string := "http://www.w3.org/2001/XMLSchema#string".
Definition alg_urn (alg : comb_alg) : string :=
  match alg with
  | DenyOverrides => "urn:oasis:names:tc:xacml:1.0:rule-combining-algorithm:deny-overrides"
  | PermitOverrides => "urn:oasis:names:tc:xacml:1.0:rule-combining-algorithm:permit-overrides"
  | FirstApplicable => "urn:oasis:names:tc:xacml:1.0:rule-combining-algorithm:first-applicable"
  end.
Definition manner_urn (m : manner) : string :=
  match m with
  | Exactly => "urn:oasis:names:tc:xacml:1.0:function:string-equal"
  | Matching => "urn:oasis:names:tc:xacml:1.0:function:string-regexp-match"
  end.

(** An element, in the namespace [ns] if there is one. *)
Definition in_ns (ns : option string) (name : string) (attrs : list (string * string))
  (text : option string) (kids : list node) : node :=
  Elem (match ns with Some u => "{" ++ u ++ "}" ++ name | None => name end) attrs text kids.

Section Documents.
Variable ns : option string.
Let e := in_ns ns.

(** [<SubjectMatch MatchId="..."><AttributeValue .../><SubjectAttributeDesignator .../></SubjectMatch>] *)
Definition match_xml (category : string) (q : requirement) : node :=
  e (category ++ "Match") [("MatchId", manner_urn (q_manner q))] None
    [e "AttributeValue" [("DataType", xsd_string)] (Some (q_text q)) [];
     e (category ++ "AttributeDesignator")
       [("AttributeId", q_attribute q); ("DataType", xsd_string); ("MustBePresent", "false")] None []].
(** [<Subjects><Subject>...</Subject>...</Subjects>], nothing without alternatives *)
Definition section_xml (category : string) (alternatives : list (list requirement)) : list node :=
  match alternatives with
  | [] => []
  | _ => [e (category ++ "s") [] None (map (fun qs => e category [] None (map (match_xml category) qs)) alternatives)]
  end.
Definition line_xml (l : line) : node :=
  e "Rule" [("RuleId", ln_name l); ("Effect", match ln_says l with EffPermit => "Permit" | EffDeny => "Deny" end)] None
    [e "Target" [] None
       (section_xml "Subject" (ln_subject l) ++ section_xml "Resource" (ln_resource l) ++
        section_xml "Action" (ln_action l))].
Definition list_xml (id : string) (alg : comb_alg) (lines : list line) : node :=
  e "Policy" [("PolicyId", id); ("Version", "1.0"); ("RuleCombiningAlgId", alg_urn alg)] None (map line_xml lines).

(** The request document of an access: one Attribute element for each attribute value. *)
Definition fact_xml (fact : string * string) : node :=
  e "Attribute" [("AttributeId", fst fact); ("DataType", xsd_string)] None
    [e "AttributeValue" [] (Some (snd fact)) []].
Definition access_xml (a : access) : node :=
  e "Request" [] None
    [e "Subject" [] None (map fact_xml (ax_subject a));
     e "Resource" [] None (map fact_xml (ax_resource a));
     e "Action" [] None (map fact_xml (ax_action a))].
End Documents.

(** XML cannot tell an empty text from none, so no line asks for one. *)
Definition worded_list (lines : list line) : Prop :=
  forall l qs q, In l lines -> In qs (ln_subject l ++ ln_resource l ++ ln_action l) -> In q qs -> q_text q <> "".

(** All patterns of the list are regular expressions. *)
Definition patterns_compile (F : fenv) (lines : list line) : Prop :=
  forall l qs q, In l lines -> In qs (ln_subject l ++ ln_resource l ++ ln_action l) -> In q qs ->
    q_manner q = Matching -> fe_compile F (q_text q) = None.

(** The request that is put to the policy. *)
Definition asked (a : access) (handler selector : option N) : request :=
  let attr fact := mkAttribute (Some (fst fact)) (Some xsd_string) None
                     [mkAV StringAV xsd_string (NStr (snd fact))] in
  mkRequest [mkSubject (Some "urn:oasis:names:tc:xacml:1.0:subject-category:access-subject") (map attr (ax_subject a))]
    [mkResource None (map attr (ax_resource a))] (Some (map attr (ax_action a))) None handler selector.

(** The attribute source answers the questions for text attributes [ids] of the subject
    with the values [knows], or with None if there are none; without a source nothing is
    known. *)
Definition source_knows (E : env) (r : request) (ids : string -> Prop) (knows : string -> list string) : Prop :=
  match rq_ctxHandler r with
  | None => forall id, knows id = []
  | Some _ => forall id, ids id ->
      let question := mkDesignator DSubject (Some id) (Some xsd_string) None false in
      en_pip E r question = Ok (Some (map (fun s => PAttr (mkAV StringAV xsd_string (NStr s))) (knows id))) \/
      (knows id = [] /\ en_pip E r question = Ok None)
  end.
(** The subject attributes that a list asks for. *)
Definition asks_for_subject (lines : list line) (id : string) : Prop :=
  exists l qs q, In l lines /\ In qs (ln_subject l) /\ In q qs /\ q_attribute q = id.

(** A decision point that has loaded the policy document in a new process answers the
    request document with a response of one result, [d], however deep its recursion may
    go. *)
Definition replies (lxml : bool) (fetch : string -> res node) (fd : finder) (E : env)
  (handler selector : option N) (policyDoc requestDoc : node) (d : decision) : Prop :=
  forall depth, exists out,
    answers lxml (S depth) std_renv fetch fd E STD_CLASS_MAP handler selector policyDoc requestDoc = Ok out /\
    answer_doc out d.

(** The evaluation knows the text type. *)
Definition knows_strings (E : env) : Prop := dict_get xsd_string (en_classes E) = Some StringAV.

(** ** Access matrices and roles *)

Definition subject_id : string := "urn:oasis:names:tc:xacml:1.0:subject:subject-id".
Definition resource_id : string := "urn:oasis:names:tc:xacml:1.0:resource:resource-id".
Definition action_id : string := "urn:oasis:names:tc:xacml:1.0:action:action-id".
Definition is (id text : string) : list (list requirement) := [[mkRequirement id Exactly text]].

(** A cell of an access matrix: a name for it, who, on what, which action, and Permit or
    Deny. *)
Record cell : Type := mkCell {
  cl_name : string; cl_user : string; cl_resource : string; cl_action : string; cl_entry : effect
}.
Definition cell_line (c : cell) : line :=
  mkLine (cl_name c) (cl_entry c) (is subject_id (cl_user c)) (is resource_id (cl_resource c))
    (is action_id (cl_action c)).
Definition triple (user res act : string) : access :=
  mkAccess [(subject_id, user)] [(resource_id, res)] [(action_id, act)].

(** A permission: a name for it, a role, a resource and an action. *)
Record permission : Type := mkPermission {
  pr_name : string; pr_role : string; pr_resource : string; pr_action : string
}.
(** The permissions as an access list for the role attribute [attribute], closed with a
    line that denies the rest. *)
Definition role_lines (attribute rest : string) (ps : list permission) : list line :=
  map (fun p => mkLine (pr_name p) EffPermit (is attribute (pr_role p)) (is resource_id (pr_resource p))
                  (is action_id (pr_action p))) ps ++ [mkLine rest EffDeny [] [] []].
