(** C56, C57 and C59: which differences between requests can be seen in decisions. *)
From Verif Require Import Eval SpecEval SpecRelate RelateFacts Sample.
From Coq Require Import Permutation.

(** ** C56: attributes no designator asks for *)

(** Adding to part [k] of a request an attribute that no designator of the policy
    tree for that part asks for does not change the outcome. *)
Theorem C56_irrelevant_attribute : forall E p r r' k a,
  self_contained r -> with_attribute a k r r' ->
  (forall d, tree_designator p d -> dg_kind d = k -> ~ asks_for d a) ->
  policy_eval E (CtxRequest r') p = policy_eval E (CtxRequest r) p.
Proof. exact irrelevant_attribute. Qed.

(** Two requests that contain, for every designator of the tree, the same attributes
    it asks for in the same order get the same outcome, whatever else they contain. *)
Theorem C56_only_requested : forall E p r r',
  self_contained r -> self_contained r' ->
  (forall d, tree_designator p d ->
     match section_attributes (dg_kind d) r, section_attributes (dg_kind d) r' with
     | Some l, Some l' => exists m, selection (asks_for d) l m /\ selection (asks_for d) l' m
     | None, None => True
     | _, _ => False
     end) ->
  policy_eval E (CtxRequest r) p = policy_eval E (CtxRequest r') p.
Proof. exact only_requested. Qed.

(** With handler or selector too: two contexts in which every designator and every
    selector of the tree has the same outcome get the same decision. *)
Theorem C56_same_retrievals : forall E c c' p,
  (forall d, tree_designator p d -> eval_designator E d c = eval_designator E d c') ->
  (forall s, tree_selector p s -> eval_selector E s c = eval_selector E s c') ->
  policy_eval E c p = policy_eval E c' p.
Proof. exact policy_agree. Qed.

(** ** C59: subject categories, resource contents and the distribution of attributes
    over subjects and resources do not matter *)
Theorem C59_grouping : forall E p r r',
  self_contained r -> self_contained r' ->
  concat (map sb_attributes (rq_subjects r)) = concat (map sb_attributes (rq_subjects r')) ->
  concat (map rs_attributes (rq_resources r)) = concat (map rs_attributes (rq_resources r')) ->
  rq_action r = rq_action r' -> rq_environment r = rq_environment r' ->
  policy_eval E (CtxRequest r) p = policy_eval E (CtxRequest r') p.
Proof.
  intros E p r r' H H' HS HR HA HN. apply C56_only_requested; [exact H|exact H'|].
  intros d _.
  replace (section_attributes (dg_kind d) r') with (section_attributes (dg_kind d) r)
    by (unfold section_attributes; rewrite HS, HR, HA, HN; reflexivity).
  destruct (section_attributes (dg_kind d) r) as [l|]; [|exact I].
  exists (filter (attr_match d) l). split; apply selection_filter.
Qed.

(** ** C57: the order of the contents of a request *)
Theorem C57_order_independent : forall E p r r',
  compile_well_behaved E ->
  (forall n, tree_function p (FnCustom n) -> order_blind E n) ->
  self_contained r -> self_contained r' -> reordered_request r r' ->
  policy_eval E (CtxRequest r) p = policy_eval E (CtxRequest r') p.
Proof.
  intros E p r r' HE HF Hr Hr' HR. exact (reordered_same E r r' HE Hr Hr' HR p HF).
Qed.

(** With built in functions only. *)
Theorem C57_built_in : forall E p r r',
  compile_well_behaved E -> (forall n, ~ tree_function p (FnCustom n)) ->
  self_contained r -> self_contained r' -> reordered_request r r' ->
  policy_eval E (CtxRequest r) p = policy_eval E (CtxRequest r') p.
Proof.
  intros E p r r' HE HF. apply C57_order_independent; [exact HE|].
  intros n Hn. destruct (HF n Hn).
Qed.

(** A user function that looks at the order makes the decision depend on it. *)
Definition first_is (args : list pyval) : res pyval :=
  match args with
  | [PBag _ (v :: _)] => Ok (py_bool (native_eqb (av_value v) (NStr "staff")))
  | _ => Ok (py_bool false)
  end.
Definition fE : env :=
  mkEnv (mkFenv (fun _ => None) (fun _ _ => true) (fun _ => first_is)) STD_CLASS_MAP
    (fun _ _ => Ok None) (fun _ _ => Ok []).
Theorem C57_custom_refuted : exists E p r r',
  compile_well_behaved E /\ self_contained r /\ self_contained r' /\ reordered_request r r' /\
  policy_eval E (CtxRequest r) p <> policy_eval E (CtxRequest r') p.
Proof.
  exists fE,
    (spol None DenyOverrides
       [srule EffPermit None (Some (XApply None (Some (FnCustom "first"))
          [XDesignator (sdes DAction "a" false)]))]),
    (mkRequest [] [] (Some [sattr "a" [sstr "staff"; sstr "guest"]]) (Some []) None None),
    (mkRequest [] [] (Some [sattr "a" [sstr "guest"; sstr "staff"]]) (Some []) None None).
  split; [intros p e H; discriminate H|]. split; [split; reflexivity|]. split; [split; reflexivity|].
  split; [|intros H; vm_compute in H; discriminate H].
  split; [exists []; repeat constructor|]. split; [exists []; repeat constructor|].
  split; [|exists []; repeat constructor].
  exists [sattr "a" [sstr "staff"; sstr "guest"]]. split; [apply Permutation_refl|].
  constructor; [|constructor]. repeat (split; [reflexivity|]). apply perm_swap.
Qed.

(** ** Cases *)
Definition extra : attribute := sattr "age" [sstr "old"].
Definition sreq_extra : request :=
  mkRequest
    [mkSubject None [sattr "role" [sstr "staff"; sstr "guest"]; sattr "name" [sstr "eve"]];
     mkSubject None [extra; sattr "role" [sstr "operator"]]]
    [mkResource None [sattr "url" [sstr "http://localhost/data"]]]
    (Some [sattr "action" [sstr "read"]]) (Some []) None None.
Definition pol : policybase := sset None PermitOverrides [spol (Some t_staff) DenyOverrides [r_permit; r_na]].

Lemma pol_designators : forall d, tree_designator pol d ->
  In (dg_id d) [Some "role"; Some "url"; Some "action"].
Proof.
  assert (S : forall q, subtree q pol -> q = pol \/ q = spol (Some t_staff) DenyOverrides [r_permit; r_na]).
  { intros q H. inversion H as [|m t alg children p Hp Hq]; subst; [left; reflexivity|right].
    destruct Hp as [<-|[]]. inversion Hq; subst. reflexivity. }
  intros d [(m & (t & Ht & Hm) & Hd)|(m & t & alg & rules & r & x & Hs & Hr & Hc & Hp)].
  - assert (t = t_staff \/ t = t_admin) as [ -> | -> ].
    { destruct Ht as [m' alg rules H|m' alg ps H|m' pt alg rules r H Hr Ht];
        apply S in H; destruct H as [H|H]; try discriminate H; injection H.
      - intros _ _ -> _. left; reflexivity.
      - intros -> _ _. destruct Hr as [<-|[<-|[]]]; injection Ht as <-; auto. }
    + cbn in Hm. destruct Hm as [<-|[<-|[<-|[<-|[]]]]]; injection Hd as <-; cbn; auto.
    + cbn in Hm. destruct Hm as [<-|[]]; injection Hd as <-; cbn; auto.
  - apply S in Hs. destruct Hs as [Hs|Hs]; [discriminate Hs|]. injection Hs as -> -> -> ->.
    destruct Hr as [<-|[<-|[]]]; [|discriminate Hc]. injection Hc as <-.
    assert (part_of (XDesignator d) (XDesignator (sdes DAction "action" true))) as K.
    { inversion Hp as [|id f args a Ha Hp']; subst. destruct Ha as [<-|[<-|[]]].
      - inversion Hp' as [|id f args a Ha Hp'']; subst. destruct Ha as [<-|[]]. exact Hp''.
      - inversion Hp'. }
    inversion K; subst. cbn. auto.
Qed.

Example C56_case : policy_eval sE (CtxRequest sreq_extra) pol = Ok Permit.
Proof.
  rewrite (C56_irrelevant_attribute sE pol sreq sreq_extra DSubject extra).
  - vm_compute. reflexivity.
  - split; reflexivity.
  - apply (add_subject extra
      [mkSubject None [sattr "role" [sstr "staff"; sstr "guest"]; sattr "name" [sstr "eve"]]] []
      None [sattr "role" [sstr "operator"]] [extra; sattr "role" [sstr "operator"]]).
    exists [], [sattr "role" [sstr "operator"]]. split; reflexivity.
  - intros d Hd _ (H & _). apply pol_designators in Hd. rewrite <- H in Hd. cbn in Hd.
    intuition discriminate.
Qed.

(** A requested attribute does matter. *)
Example C56_relevant :
  policy_eval sE (CtxRequest (mkRequest [mkSubject None []] (rq_resources sreq) (rq_action sreq)
                                (rq_environment sreq) None None)) pol = Ok NotApplicable.
Proof. vm_compute. reflexivity. Qed.

Definition sreq_turned : request :=
  mkRequest
    [mkSubject None [sattr "role" [sstr "operator"]];
     mkSubject None [sattr "name" [sstr "eve"]; sattr "role" [sstr "guest"; sstr "staff"]]]
    [mkResource None [sattr "url" [sstr "http://localhost/data"]]]
    (Some [sattr "action" [sstr "read"]]) (Some []) None None.

Example C57_case : reordered_request sreq sreq_turned /\
  policy_eval sE (CtxRequest sreq_turned) pol = Ok Permit.
Proof.
  assert (A : forall l, reordered_attributes l l).
  { intros l. exists l. split; [apply Permutation_refl|]. induction l; constructor; [|assumption].
    repeat (split; [reflexivity|]). apply Permutation_refl. }
  split; [|vm_compute; reflexivity]. split; [|split; [|split; apply A]].
  - eexists. split; [apply perm_swap|]. constructor; [apply A|]. constructor; [|constructor].
    cbn [sb_attributes]. eexists. split; [apply perm_swap|].
    constructor; [repeat (split; [reflexivity|]); apply Permutation_refl|].
    constructor; [|constructor]. repeat (split; [reflexivity|]). apply perm_swap.
  - eexists. split; [apply Permutation_refl|]. constructor; [apply A|constructor].
Qed.

Example C57_hypotheses : compile_well_behaved sE /\ forall n, ~ tree_function pol (FnCustom n).
Proof.
  assert (S : forall q, subtree q pol -> q = pol \/ q = spol (Some t_staff) DenyOverrides [r_permit; r_na]).
  { intros q H. inversion H as [|m t alg children p Hp Hq]; subst; [left; reflexivity|right].
    destruct Hp as [<-|[]]. inversion Hq; subst. reflexivity. }
  split.
  - intros p e. cbn. destruct (String.eqb p "["); [|discriminate]. intros H. injection H as <-. reflexivity.
  - intros n [(m & (t & Ht & Hm) & Hf)|(id & args & m & t & alg & rules & r & x & Hs & Hr & Hc & Hp)].
    + assert (t = t_staff \/ t = t_admin) as [ -> | -> ].
      { destruct Ht as [m' alg rules H|m' alg ps H|m' pt alg rules r H Hr Ht];
          apply S in H; destruct H as [H|H]; try discriminate H; injection H.
        - intros _ _ -> _. left; reflexivity.
        - intros -> _ _. destruct Hr as [<-|[<-|[]]]; injection Ht as <-; auto. }
      * cbn in Hm. destruct Hm as [<-|[<-|[<-|[<-|[]]]]]; discriminate Hf.
      * cbn in Hm. destruct Hm as [<-|[]]; discriminate Hf.
    + apply S in Hs. destruct Hs as [Hs|Hs]; [discriminate Hs|]. injection Hs as -> -> -> ->.
      destruct Hr as [<-|[<-|[]]]; [|discriminate Hc]. injection Hc as <-.
      inversion Hp as [|id' f args' a Ha Hp']; subst. destruct Ha as [<-|[<-|[]]].
      * inversion Hp' as [|id'' f args' a Ha Hp'']; subst. destruct Ha as [<-|[]]. inversion Hp''.
      * inversion Hp'.
Qed.

(** Two subjects merged into one with another category. *)
Example C59_case :
  policy_eval sE (CtxRequest (mkRequest
    [mkSubject (Some "codebase") (concat (map sb_attributes (rq_subjects sreq)))]
    (rq_resources sreq) (rq_action sreq) (rq_environment sreq) None None)) pol = Ok Permit.
Proof.
  rewrite (C59_grouping sE pol _ sreq);
    [vm_compute; reflexivity|split; reflexivity|split; reflexivity|reflexivity..].
Qed.

Print Assumptions C56_irrelevant_attribute.
Print Assumptions C56_only_requested.
Print Assumptions C56_same_retrievals.
Print Assumptions C59_grouping.
Print Assumptions C57_order_independent.
Print Assumptions C57_built_in.
Print Assumptions C57_custom_refuted.
