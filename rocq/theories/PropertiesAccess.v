(** C100: access lists, access matrices and role permissions put into policy documents. *)
From Verif Require Import Service SpecService SpecAccess AccessFacts AccessFacts2 Sample.
Local Open Scope list_scope.

(** A decision point that has loaded the document of an access list answers the document
    of an access with what the list says. *)
Theorem C100_list : forall lxml fetch fd E handler selector knows ns ns' id alg lines a d,
  NoDup (map ln_name lines) -> worded_list lines -> patterns_compile (en_fenv E) lines ->
  knows_strings E -> source_knows E (asked a handler selector) (asks_for_subject lines) knows ->
  list_says (fe_match (en_fenv E)) knows lines a alg d ->
  replies lxml fetch fd E handler selector (list_xml ns id alg lines) (access_xml ns' a) d.
Proof. exact list_answers. Qed.

(** The list says exactly one thing on each access. *)
Theorem C100_says : forall matches knows lines a alg,
  exists d, list_says matches knows lines a alg d /\
    forall d', list_says matches knows lines a alg d' -> d' = d.
Proof.
  intros matches knows lines a alg. destruct (list_says_total matches knows lines a alg) as (d & Hd).
  exists d. split; [exact Hd|]. intros d' H. exact (list_says_unique _ _ _ _ _ _ _ H Hd).
Qed.

(** Two different replies are never given. *)
Theorem C100_one_reply : forall lxml fetch fd E handler selector pd rd d d',
  replies lxml fetch fd E handler selector pd rd d ->
  replies lxml fetch fd E handler selector pd rd d' -> d = d'.
Proof.
  intros lxml fetch fd E h x pd rd d d' H H'. destruct (H 0) as (out & Ho & Ha). destruct (H' 0) as (out' & Ho' & Ha').
  rewrite Ho in Ho'. injection Ho' as <-. exact (ServiceFacts.answer_unique _ _ _ Ha Ha').
Qed.

(** Every access matrix can be put into a policy document, with any of the three
    algorithms: what a cell says is the reply for its user, resource and action, and
    NotApplicable is the reply for all others. *)
Theorem C100_matrix : forall lxml fetch fd E selector ns ns' id alg cells,
  NoDup (map cl_name cells) ->
  (forall c, In c cells -> cl_user c <> "" /\ cl_resource c <> "" /\ cl_action c <> "") ->
  (forall c1 c2, In c1 cells -> In c2 cells -> cl_user c1 = cl_user c2 -> cl_resource c1 = cl_resource c2 ->
     cl_action c1 = cl_action c2 -> cl_entry c1 = cl_entry c2) ->
  knows_strings E ->
  let reply u r act := replies lxml fetch fd E None selector (list_xml ns id alg (map cell_line cells))
                         (access_xml ns' (triple u r act)) in
  (forall c, In c cells -> reply (cl_user c) (cl_resource c) (cl_action c)
     match cl_entry c with EffPermit => Permit | EffDeny => Deny end) /\
  (forall u r act, (forall c, In c cells -> ~ (cl_user c = u /\ cl_resource c = r /\ cl_action c = act)) ->
     reply u r act NotApplicable).
Proof.
  intros lxml fetch fd E x ns ns' id alg cells Hn Hw Hu HE reply.
  assert (N : NoDup (map ln_name (map cell_line cells))) by (rewrite map_map; exact Hn).
  assert (W : worded_list (map cell_line cells)).
  { intros l qs q Hl Hqs Hq. apply in_map_iff in Hl. destruct Hl as (c & <- & Hc). destruct (Hw c Hc) as (W1 & W2 & W3).
    cbn in Hqs. destruct Hqs as [<-|[<-|[<-|[]]]]; destruct Hq as [<-|[]]; assumption. }
  assert (P : patterns_compile (en_fenv E) (map cell_line cells)).
  { intros l qs q Hl Hqs Hq M. exfalso. apply in_map_iff in Hl. destruct Hl as (c & <- & Hc).
    cbn in Hqs. destruct Hqs as [<-|[<-|[<-|[]]]]; destruct Hq as [<-|[]]; discriminate M. }
  split.
  - intros c Hc. refine (list_answers lxml fetch fd E None x (fun _ => []) ns ns' id alg _ _ _ N W P HE _ _).
    + intros i. reflexivity.
    + apply (matrix_says _ _ cells alg c); auto.
  - intros u r act H. refine (list_answers lxml fetch fd E None x (fun _ => []) ns ns' id alg _ _ _ N W P HE _ _).
    + intros i. reflexivity.
    + apply matrix_silent; auto.
Qed.

(** Role permissions: the reply is Permit exactly if the subject has, in the request or
    by the attribute source, a role with a permission for the resource and the action;
    otherwise it is Deny. *)
Theorem C100_roles : forall lxml fetch fd E handler selector knows ns ns' id attribute rest ps subject r act,
  NoDup (rest :: map pr_name ps) ->
  (forall p, In p ps -> pr_role p <> "" /\ pr_resource p <> "" /\ pr_action p <> "") ->
  knows_strings E ->
  let a := mkAccess subject [(resource_id, r)] [(action_id, act)] in
  source_knows E (asked a handler selector) (fun id => id = attribute) knows ->
  let reply := replies lxml fetch fd E handler selector
                 (list_xml ns id FirstApplicable (role_lines attribute rest ps)) (access_xml ns' a) in
  let allowed := exists p, In p ps /\ (In (attribute, pr_role p) subject \/ In (pr_role p) (knows attribute)) /\
                   pr_resource p = r /\ pr_action p = act in
  (allowed -> reply Permit) /\ (~ allowed -> reply Deny).
Proof.
  intros lxml fetch fd E h x knows ns ns' id at0 rest ps sub r act Hn Hw HE a Hs0 reply allowed.
  assert (N : NoDup (map ln_name (role_lines at0 rest ps))).
  { unfold role_lines. rewrite map_app, map_map. cbn [map ln_name]. inversion Hn as [|? ? Hr Hn']; subst.
    apply (Permutation.Permutation_NoDup (Permutation.Permutation_cons_append _ _)). constructor; assumption. }
  assert (W : worded_list (role_lines at0 rest ps)).
  { intros l qs q Hl Hqs Hq. unfold role_lines in Hl. apply in_app_iff in Hl. destruct Hl as [Hl|[<-|[]]]; [|destruct Hqs].
    apply in_map_iff in Hl. destruct Hl as (p & <- & Hp). destruct (Hw p Hp) as (W1 & W2 & W3).
    cbn in Hqs. destruct Hqs as [<-|[<-|[<-|[]]]]; destruct Hq as [<-|[]]; assumption. }
  assert (P : patterns_compile (en_fenv E) (role_lines at0 rest ps)).
  { intros l qs q Hl Hqs Hq M. exfalso. unfold role_lines in Hl. apply in_app_iff in Hl. destruct Hl as [Hl|[<-|[]]]; [|destruct Hqs].
    apply in_map_iff in Hl. destruct Hl as (p & <- & Hp).
    cbn in Hqs. destruct Hqs as [<-|[<-|[<-|[]]]]; destruct Hq as [<-|[]]; discriminate M. }
  assert (Hs : source_knows E (asked a h x) (asks_for_subject (role_lines at0 rest ps)) knows).
  { revert Hs0. unfold source_knows. destruct (rq_ctxHandler (asked a h x)); [|auto]. intros Hs0 i Hi. apply Hs0.
    destruct Hi as (l & qs & q & Hl & Hqs & Hq & <-). unfold role_lines in Hl. apply in_app_iff in Hl.
    destruct Hl as [Hl|[<-|[]]]; [|destruct Hqs]. apply in_map_iff in Hl. destruct Hl as (p & <- & _).
    destruct Hqs as [<-|[]]. destruct Hq as [<-|[]]. reflexivity. }
  destruct (roles_say (fe_match (en_fenv E)) knows at0 rest ps sub r act) as (R1 & R2).
  split; intros H; apply (list_answers lxml fetch fd E h x knows ns ns' id FirstApplicable _ _ _ N W P HE Hs);
    [apply R1, H|apply R2, H].
Qed.

(** ** Cases *)

(** A list with alternatives and a pattern: guests are refused, staff and operators may
    read what starts with http://localhost, the rest is not mentioned. *)
Definition some_lines : list line :=
  [mkLine "no guests" EffDeny (is "role" "guest") [] [];
   mkLine "reading" EffPermit [[mkRequirement "role" Exactly "staff"]; [mkRequirement "role" Exactly "operator"]]
     [[mkRequirement "url" Matching "http://localhost"]] (is "action" "read")].
Definition some_access (role url : string) : access :=
  mkAccess [("role", role)] [("url", url)] [("action", "read")].
Definition replied (a : access) (d : decision) : Prop :=
  replies false (fun _ => Raise (EOther 9)) LocalFinder sE None None
    (list_xml (Some "urn:oasis:names:tc:xacml:2.0:policy:schema:os") "list" FirstApplicable some_lines)
    (access_xml None a) d.

Example C100_case :
  replied (some_access "staff" "http://localhost/data") Permit /\
  replied (some_access "operator" "http://localhost/data") Permit /\
  replied (some_access "guest" "http://localhost/data") Deny /\
  replied (some_access "staff" "http://elsewhere/data") NotApplicable.
Proof.
  assert (K : forall a d, list_says (fe_match (en_fenv sE)) (fun _ => []) some_lines a FirstApplicable d -> replied a d).
  { intros a d H. apply (C100_list _ _ _ _ _ _ (fun _ => [])); try assumption.
    - repeat constructor; cbn; intuition discriminate.
    - intros l qs q [<-|[<-|[]]] Hqs Hq; cbn in Hqs; intuition (subst; cbn in Hq; intuition (subst; discriminate)).
    - intros l qs q [<-|[<-|[]]] Hqs Hq M; cbn in Hqs; intuition (subst; cbn in Hq; intuition (subst; try discriminate M; reflexivity)).
    - vm_compute. reflexivity.
    - intros i. reflexivity. }
  assert (G : forall role url, role <> "guest" ->
    ~ about (fe_match (en_fenv sE)) (fun _ => []) (some_access role url) (mkLine "no guests" EffDeny (is "role" "guest") [] [])).
  { intros role url Hr (H & _). apply is_met in H. cbn in H. intuition congruence. }
  assert (S : forall role url, role = "staff" \/ role = "operator" -> String.prefix "http://localhost" url = true ->
    replied (some_access role url) Permit).
  { intros role url Hr Hu. apply K.
    refine (says_first _ _ _ _ [mkLine "no guests" EffDeny (is "role" "guest") [] []] _ [] eq_refl _ _).
    - intros l' [<-|[]]. apply G. destruct Hr; subst; discriminate.
    - split; [|split].
      + right. destruct Hr as [->| ->].
        * exists [mkRequirement "role" Exactly "staff"]. split; [left; reflexivity|]. intros q [<-|[]].
          exists "staff". split; [left; left; reflexivity|reflexivity].
        * exists [mkRequirement "role" Exactly "operator"]. split; [right; left; reflexivity|]. intros q [<-|[]].
          exists "operator". split; [left; left; reflexivity|reflexivity].
      + right. eexists. split; [left; reflexivity|]. intros q [<-|[]]. exists url. split; [left; reflexivity|exact Hu].
      + apply is_met. left. reflexivity. }
  split; [apply S; auto|]. split; [apply S; auto|]. split.
  - apply K. refine (says_first _ _ _ _ [] _ _ eq_refl _ _); [intros l' []|].
    split; [apply is_met; left; left; reflexivity|]. split; left; reflexivity.
  - apply K. apply says_nothing. intros l [<-|[<-|[]]].
    + apply G. discriminate.
    + intros (_ & [H|(qs & [<-|[]] & H)] & _); [discriminate H|].
      destruct (H _ (or_introl eq_refl)) as (v & [[= <-]|[]] & M). vm_compute in M. discriminate M.
Qed.

(** The attribute source of the examples knows the roles staff and admin of everybody. *)
Definition some_permissions : list permission :=
  [mkPermission "a" "admin" "disk" "format"; mkPermission "b" "staff" "disk" "read"; mkPermission "c" "root" "disk" "burn"].
Example C100_case_roles : forall act, In act ["format"; "read"; "burn"] ->
  replies true (fun _ => Raise (EOther 9)) LocalFinder sE (Some 1%N) None
    (list_xml None "roles" FirstApplicable (role_lines "role" "z" some_permissions))
    (access_xml None (mkAccess [(subject_id, "eve")] [(resource_id, "disk")] [(action_id, act)]))
    (if String.eqb act "burn" then Deny else Permit).
Proof.
  intros act Hact.
  destruct (C100_roles true (fun _ => Raise (EOther 9)) LocalFinder sE (Some 1%N) None
    (fun id => if String.eqb id "role" then ["staff"; "admin"] else []) None None "roles" "role" "z" some_permissions
    [(subject_id, "eve")] "disk" act) as (P & D).
  - repeat constructor; cbn; intuition discriminate.
  - intros p [<-|[<-|[<-|[]]]]; repeat split; discriminate.
  - vm_compute. reflexivity.
  - intros i ->. left. reflexivity.
  - destruct Hact as [<-|[<-|[<-|[]]]].
    + apply P. eexists. split; [left; reflexivity|]. cbn. auto 6.
    + apply P. eexists. split; [right; left; reflexivity|]. cbn. auto 6.
    + apply D. intros (p & [<-|[<-|[<-|[]]]] & [[[=]|[]]|H] & Hr & Ha); try discriminate Ha.
      cbn in H. intuition discriminate.
Qed.

(** A matrix of three cells. *)
Definition some_cells : list cell :=
  [mkCell "1" "ann" "disk" "read" EffPermit; mkCell "2" "ann" "disk" "format" EffDeny;
   mkCell "3" "bob" "disk" "read" EffDeny].
Example C100_case_matrix : forall alg,
  let reply u act := replies false (fun _ => Raise (EOther 9)) LocalFinder sE None None
                       (list_xml None "matrix" alg (map cell_line some_cells)) (access_xml None (triple u "disk" act)) in
  reply "ann" "read" Permit /\ reply "ann" "format" Deny /\ reply "bob" "read" Deny /\ reply "bob" "format" NotApplicable.
Proof.
  intros alg reply.
  destruct (C100_matrix false (fun _ => Raise (EOther 9)) LocalFinder sE None None None "matrix" alg some_cells) as (H & N).
  - repeat constructor; cbn; intuition discriminate.
  - intros c [<-|[<-|[<-|[]]]]; repeat split; discriminate.
  - intros c1 c2 [<-|[<-|[<-|[]]]] [<-|[<-|[<-|[]]]]; cbn; intros; congruence.
  - vm_compute. reflexivity.
  - split; [apply (H (mkCell "1" "ann" "disk" "read" EffPermit)); cbn; auto|].
    split; [apply (H (mkCell "2" "ann" "disk" "format" EffDeny)); cbn; auto|].
    split; [apply (H (mkCell "3" "bob" "disk" "read" EffDeny)); cbn; auto|].
    apply N. intros c [<-|[<-|[<-|[]]]] (H1 & _ & H3); discriminate.
Qed.

Print Assumptions C100_list.
Print Assumptions C100_says.
Print Assumptions C100_one_reply.
Print Assumptions C100_matrix.
Print Assumptions C100_roles.
