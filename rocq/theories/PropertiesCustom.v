(** C87, C88: combining algorithms, policies and factories of the user. *)
From Verif Require Import Custom SpecCustom CustomFacts CustomFacts2 Sample.
From Coq Require Import Lia.
Local Open Scope list_scope.

(** ** C87 *)

(** An algorithm of the user is told nothing but what the rules it asks decide, its answer
    is handed on as it is, and its exceptions become Indeterminate. *)
Theorem C87_rules : forall C c t k rules, applies C c t ->
  exists log r, rtalk (ce_rules C k rules c) log r /\ true_of_rules C log /\
    handed_on r (c_evaluate C (CPolicy t (Some (User k)) rules) c).
Proof. exact user_rules. Qed.

Theorem C87_rules_only : forall C c t k rules log r a, applies C c t ->
  rtalk (ce_rules C k rules c) log r -> true_of_rules C log -> handed_on r a ->
  c_evaluate C (CPolicy t (Some (User k)) rules) c = a.
Proof. exact user_rules_det. Qed.

Theorem C87_policies : forall C c t k ps, applies C c t ->
  exists log r, ptalk (ce_policies C k ps c) log r /\ true_of_members C ps log /\
    handed_on r (c_evaluate C (CPolicySet t (Some (User k)) ps) c).
Proof. exact user_policies. Qed.

Theorem C87_policies_only : forall C c t k ps log r a, applies C c t ->
  ptalk (ce_policies C k ps c) log r -> true_of_members C ps log -> handed_on r a ->
  c_evaluate C (CPolicySet t (Some (User k)) ps) c = a.
Proof. exact user_policies_det. Qed.

(** It is asked only if the target matches. *)
Theorem C87_target_first : forall C c t,
  target_match (ce_env C) c t = Ok false ->
  forall alg rules ps,
  c_evaluate C (CPolicy (Some t) alg rules) c = Ok (ADecision NotApplicable) /\
  c_evaluate C (CPolicySet (Some t) alg ps) c = Ok (ADecision NotApplicable).
Proof. exact target_first. Qed.

Theorem C87_target_error : forall C c t e r,
  target_match (ce_env C) c t = Raise e -> handed_on (Raise e) r ->
  forall alg rules ps,
  c_evaluate C (CPolicy (Some t) alg rules) c = r /\
  c_evaluate C (CPolicySet (Some t) alg ps) c = r.
Proof. exact target_error. Qed.

(** Whatever it does, no exception of the Exception hierarchy leaves the policy. *)
Theorem C87_contained : forall C p c e,
  (forall k, p <> CUser k) -> c_evaluate C p c = Raise e -> is_exception e = false.
Proof. exact contained. Qed.

(** Without classes of the user evaluation is that of the other properties. *)
Theorem C87_standard : forall C p c,
  match policy_eval (ce_env C) c p with
  | Ok d => c_evaluate C (standard p) c = Ok (ADecision d)
  | Raise e => c_evaluate C (standard p) c = Raise e
  end.
Proof.
  intros C p c. rewrite standard_eval. destruct (policy_eval (ce_env C) c p); reflexivity.
Qed.

(** An algorithm may be exchanged for one that ends alike. *)
Theorem C87_exchange : forall C a b, same_on_rules C a b ->
  forall p q, replaced a b p q -> forall c, c_evaluate C p c = c_evaluate C q c.
Proof. exact replaced_same. Qed.

(** Members of a set may answer with anything that compares like a decision. *)
Theorem C87_taken : forall C c t x ps qs,
  Forall2 (fun p q => exists a d, c_evaluate C p c = Ok a /\
             c_evaluate C q c = Ok (ADecision d) /\ taken_for C a d) ps qs ->
  c_evaluate C (CPolicySet t (Some (Std x)) ps) c =
  c_evaluate C (CPolicySet t (Some (Std x)) qs) c.
Proof. exact set_same_answers. Qed.

(** An answer unlike any decision is passed over, by every algorithm. *)
Theorem C87_unlike_any : forall C c t x before p after a,
  c_evaluate C p c = Ok a -> unlike_any C a ->
  c_evaluate C (CPolicySet t (Some (Std x)) (before ++ p :: after)) c =
  c_evaluate C (CPolicySet t (Some (Std x)) (before ++ after)) c.
Proof. exact set_without. Qed.

(** None or another string makes the set Indeterminate, unless it has been decided. *)
Theorem C87_spoiled : forall C c t x before p after a, applies C c t ->
  (forall q, In q before -> exists b d,
     c_evaluate C q c = Ok b /\ taken_for C b d /\ goes_on x d) ->
  c_evaluate C p c = Ok a -> refuses_comparison C a ->
  c_evaluate C (CPolicySet t (Some (Std x)) (before ++ p :: after)) c =
  Ok (ADecision Indeterminate).
Proof. exact set_spoiled. Qed.

(** A response is made of decisions only. *)
Theorem C87_response : forall C p c,
  (forall d, c_evaluate C p c = Ok (ADecision d) -> c_response C p c = Ok d) /\
  (forall a, c_evaluate C p c = Ok a -> (forall d, a <> ADecision d) ->
     c_response C p c = Raise ETypeError) /\
  (forall e, c_evaluate C p c = Raise e -> (forall k, p <> CUser k) -> c_response C p c = Raise e).
Proof.
  intros C p c. unfold c_response. split; [|split].
  - intros d ->. reflexivity.
  - intros a -> N. destruct a as [d| | |]; try reflexivity. destruct (N d eq_refl).
  - intros e E N. assert (X := contained C p c e N E). rewrite E.
    destruct e; try discriminate X. reflexivity.
Qed.

(** Permit comes from a rule as long as the user's classes do not make it up. *)
Theorem C87_permit_from_rule : forall C,
  honest_rules C -> honest_policies C -> reserved_users C ->
  forall p c a, c_evaluate C p c = Ok a -> permits C a ->
  exists r, rule_of r p /\ rule_eval (ce_env C) c r = Ok Permit.
Proof. exact permit_from_rule. Qed.

(** *** A concrete case *)

(** At least two rules must permit. *)
Fixpoint two_permits (n : nat) (rules : list rule) (c : context) : rplay :=
  match rules with
  | [] => RStop (Ok (ADecision (if Nat.leb 2 n then Permit else Deny)))
  | r :: rest => RAsk r c (fun d => match d with
                                    | Ok Permit => two_permits (S n) rest c
                                    | Ok _ => two_permits n rest c
                                    | Raise e => RStop (Raise e)
                                    end)
  end.

(** First-applicable, written once more *)
Fixpoint first_again (rules : list rule) (c : context) : rplay :=
  match rules with
  | [] => RStop (Ok (ADecision NotApplicable))
  | r :: rest => RAsk r c (fun d => match d with
                                    | Ok NotApplicable => first_again rest c
                                    | Ok x => RStop (Ok (ADecision x))
                                    | Raise e => RStop (Raise e)
                                    end)
  end.

(** The answer of the last member *)
Definition last_member (ps : list cpolicy) (c : context) : pplay :=
  PAsk (length ps - 1) c (fun b => PStop b).

Definition exC : cenv :=
  mkCenv sE
    (fun k rules c => match k with
                      | 1%N => two_permits 0 rules c
                      | 2%N => first_again rules c
                      | 3%N => RStop (Ok ANone)
                      | 4%N => RStop (Ok (AObject 1))
                      | 5%N => match rules with
                               | r :: _ => RAsk r c (fun d => RStop (Ok (match d with
                                                                        | Ok Permit => AString "Permit"
                                                                        | _ => AString "Deny"
                                                                        end)))
                               | [] => RStop (Raise EIndexError)
                               end
                      | _ => RStop (Raise (EOther 9))
                      end)
    (fun k ps c => last_member ps c)
    (fun k c => Ok (ADecision Deny))
    (fun o d => Ok false).

Definition pol (k : N) (rules : list rule) : cpolicy := CPolicy (Some t_staff) (Some (User k)) rules.

Example C87_case :
  c_evaluate exC (pol 1 [r_permit; r_na; r_permit]) sctx = Ok (ADecision Permit) /\
  c_evaluate exC (pol 1 [r_permit; r_deny]) sctx = Ok (ADecision Deny) /\
  c_evaluate exC (pol 9 [r_permit]) sctx = Ok (ADecision Indeterminate) /\
  c_evaluate exC (pol 3 [r_permit]) sctx = Ok ANone /\
  c_response exC (pol 3 [r_permit]) sctx = Raise ETypeError /\
  c_evaluate exC (pol 5 [r_permit]) sctx = Ok (AString "Permit") /\
  c_evaluate exC (CPolicySet None (Some (User 7)) [pol 1 [r_permit]; pol 5 [r_permit]]) sctx =
    Ok (AString "Permit") /\
  c_evaluate exC (CPolicySet None (Some (User 7)) []) sctx = Ok (ADecision Indeterminate) /\
  c_evaluate exC (CPolicySet None (Some (Std DenyOverrides))
    [pol 5 [r_permit]; pol 4 []; CUser 1]) sctx = Ok (ADecision Deny) /\
  c_evaluate exC (CPolicySet None (Some (Std DenyOverrides))
    [pol 5 [r_permit]; pol 4 []]) sctx = Ok (ADecision Permit) /\
  c_evaluate exC (CPolicySet None (Some (Std DenyOverrides))
    [pol 5 [r_permit]; pol 3 []; CUser 1]) sctx = Ok (ADecision Indeterminate).
Proof. vm_compute. repeat split. Qed.

Example C87_target_case : applies exC sctx (Some t_staff) /\
  target_match (ce_env exC) sctx t_admin = Ok false /\
  target_match (ce_env exC) sctx t_error = Raise (EOther 1).
Proof.
  split; [right; exists t_staff; split; [reflexivity|vm_compute; reflexivity]|].
  split; vm_compute; reflexivity.
Qed.

Example C87_spoiled_case : forall q, In q [pol 5 [r_permit]; pol 5 [r_permit; r_deny]] ->
  exists b d, c_evaluate exC q sctx = Ok b /\ taken_for exC b d /\ goes_on DenyOverrides d.
Proof.
  intros q [<-|[<-|[]]]; exists (AString "Permit"), Permit;
    (split; [vm_compute; reflexivity|split; [reflexivity|left; reflexivity]]).
Qed.

Example C87_spoiled_answers : refuses_comparison exC ANone /\
  refuses_comparison exC (AString "permit") /\ unlike_any exC (AObject 1) /\
  taken_for exC (AString "Permit") Permit.
Proof.
  split; [exact I|]. split; [repeat split; discriminate|].
  split; [exists 1%N; split; reflexivity|reflexivity].
Qed.

Example C87_exchange_case : same_on_rules exC (User 2) (Std FirstApplicable).
Proof.
  intros says rules c r. cbn [ends_on_rules exC ce_rules combine_rules].
  assert (H : exists log, rtalk (first_again rules c) log
                (match rules_first_applicable (fun x => says x c) rules with
                 | Ok d => Ok (ADecision d) | Raise e => Raise e end) /\
              (forall x c' d, In (x, c', d) log -> d = says x c')).
  { induction rules as [|x rules IH]; cbn.
    - exists []. split; [constructor|intros ? ? ? []].
    - destruct (says x c) as [d|e] eqn:E; cbn.
      + assert (D : d = NotApplicable \/ d <> NotApplicable) by (destruct d; auto; right; discriminate).
        destruct D as [-> | D].
        * destruct IH as (log & T & V). exists ((x, c, Ok NotApplicable) :: log). split.
          -- constructor. exact T.
          -- intros y c' d [Q|I]; [congruence|exact (V _ _ _ I)].
        * exists [(x, c, Ok d)]. split.
          -- constructor. destruct d; try (constructor); congruence.
          -- intros y c' d' [Q|[]]. congruence.
      + exists [(x, c, Raise e)]. split; [repeat constructor|].
        intros y c' d' [Q|[]]. congruence. }
  destruct H as (log & T & V). split.
  - intros (log' & T' & V').
    assert (r = play_rules says (first_again rules c)) as -> by (exact (talk_play_rules _ _ _ _ T' V')).
    rewrite <- (talk_play_rules _ _ _ _ T V).
    destruct (rules_first_applicable _ rules); reflexivity.
  - intros H. exists log. split; [|exact V].
    destruct (rules_first_applicable _ rules); subst r; exact T.
Qed.

Example C87_honest_case : honest_policies exC /\ reserved_users exC /\ honest_rules exC.
Proof.
  assert (NP : forall d, permits exC (ADecision d) -> d = Permit).
  { intros d [H|[H|(o & H & _)]]; congruence. }
  split; [|split].
  - intros k ps c log a T P. cbn in T. inversion T as [|i c0 k0 b log0 a0 T0]; subst.
    inversion T0; subst.
    exists (length ps - 1), a. split; [left; reflexivity|exact P].
  - intros k c a H P. cbn in H. injection H as <-. apply NP in P. discriminate.
  - assert (H1 : forall rules c n log a, rtalk (two_permits n rules c) log (Ok a) -> permits exC a ->
       2 <= n \/ exists r, In r rules /\ In (r, c, Ok Permit) log).
    { induction rules as [|x rules IH]; intros c n log a T P;
        cbn [two_permits] in T; inversion T; subst.
      - apply NP in P. destruct n as [|[|n]]; [discriminate P|discriminate P|left; lia].
      - match goal with T : rtalk _ ?l (Ok a) |- _ => rename T into T1 end.
        destruct d as [[]|e].
        + right. exists x. split; left; reflexivity.
        + destruct (IH _ _ _ _ T1 P) as [L|(r & I & J)]; [left; exact L|].
          right. exists r. split; right; assumption.
        + destruct (IH _ _ _ _ T1 P) as [L|(r & I & J)]; [left; exact L|].
          right. exists r. split; right; assumption.
        + destruct (IH _ _ _ _ T1 P) as [L|(r & I & J)]; [left; exact L|].
          right. exists r. split; right; assumption.
        + inversion T1. }
    assert (H2 : forall rules c log a, rtalk (first_again rules c) log (Ok a) -> permits exC a ->
       exists r, In r rules /\ In (r, c, Ok Permit) log).
    { induction rules as [|x rules IH]; intros c log a T P; cbn in T; inversion T; subst.
      - apply NP in P. discriminate.
      - match goal with T : rtalk _ ?l (Ok a) |- _ => rename T into T1 end.
        assert (D : d = Ok NotApplicable \/ d <> Ok NotApplicable)
          by (destruct d as [[]|]; auto; right; discriminate).
        destruct D as [-> | D].
        + destruct (IH _ _ _ T1 P) as (r & I & J). exists r. split; right; assumption.
        + destruct d as [d|e]; [|inversion T1].
          assert (T2 : rtalk (RStop (Ok (ADecision d))) log0 (Ok a)) by (destruct d; congruence || exact T1).
          inversion T2; subst. apply NP in P. subst d. exists x. split; left; reflexivity. }
    assert (N0 : forall r log a, rtalk (RStop r) log (Ok a) -> permits exC a ->
       (forall b, r = Ok b -> b = ANone \/ exists o, b = AObject o) -> False).
    { intros r log a T P H. inversion T; subst. destruct (H a eq_refl) as [-> | (o & ->)];
        destruct P as [E|[E|(o' & E & E')]]; try discriminate. }
    intros k rules c log a T P. cbn [exC ce_rules] in T.
    destruct k as [|[[q|q|]|[q|q|]|]]; try (destruct q as [q|q|]);
      try (destruct (N0 _ _ _ T P); intros b E; injection E as <-; eauto; fail);
      try (destruct (N0 _ _ _ T P); intros b E; discriminate).
    + destruct rules as [|x rules]; [inversion T|]. inversion T; subst.
      match goal with T : rtalk (RStop _) _ (Ok a) |- _ => inversion T; subst end.
      destruct d as [[]|]; try (destruct P as [E|[E|(o' & E & E')]]; discriminate).
      exists x. split; left; reflexivity.
    + exact (H2 _ _ _ _ T P).
    + destruct (H1 _ _ _ _ _ T P) as [L|R]; [lia|exact R].
Qed.

(** ** C88 *)

(** The algorithm in force is of the class the factory named when the id was last
    assigned with success, whatever is registered, assigned or fails afterwards. *)
Theorem C88_installed : forall U s p h id ops, plain_classes U ->
  nth_error (cs_holders s) p = Some h ->
  let s1 := snd (f_step U s (FSetId p (NStr id))) in
  fst (f_step U s (FSetId p (NStr id))) = Ok tt ->
  no_assignment U s1 p ops ->
  exists e a h', offers U s (ho_factory h) id e /\ class_for_side (ho_side h) e a /\
    nth_error (cs_holders (f_run U ops s1)) p = Some h' /\ ho_alg h' = SAlg a.
Proof. exact installed. Qed.

(** A Policy or PolicySet is created exactly if no factory is given or one of its own side;
    it has no id and no algorithm, and without a factory it asks the DEFAULT_MAP of its own
    side, dict 0 for rules and dict 1 for policies.  Nothing else changes. *)
Theorem C88_new : forall U s sd f,
  let own := match sd with ForRules => FTable ForRules 0 | ForPolicies => FTable ForPolicies 1 end in
  let side_of f := match f with FTable d _ | FUser d _ => d end in
  (fst (f_step U s (FNew sd f)) = Ok tt <->
    f = None \/ exists f', f = Some (GFactory f') /\ side_of f' = sd) /\
  (fst (f_step U s (FNew sd f)) <> Ok tt ->
    f_step U s (FNew sd f) = (Raise ETypeError, s)) /\
  (fst (f_step U s (FNew sd f)) = Ok tt ->
    snd (f_step U s (FNew sd f)) =
    mkCstate (cs_tables s) (cs_calls s)
      (cs_holders s ++
       [mkHolder sd None (match f with Some (GFactory f') => f' | _ => own end) SNone])).
Proof.
  intros U s sd f own side_of. cbn [f_step].
  destruct f as [[f|]|]; cbn [accepted].
  - assert (E : side_eqb (factory_side f) sd = true <-> side_of f = sd).
    { destruct f as [d ?|d ?], d, sd; cbn; split; congruence. }
    destruct (side_eqb (factory_side f) sd); cbn [fst snd].
    + split; [|split; [intros N; exfalso; apply N; reflexivity|reflexivity]].
      split; [intros _; right; exists f; split; [reflexivity|apply E; reflexivity]|reflexivity].
    + split; [|split; [reflexivity|discriminate]].
      split; [discriminate|]. intros [H|(f' & H & S)]; [discriminate|].
      injection H as <-. apply E in S. discriminate.
  - cbn [fst snd]. split; [|split; [reflexivity|discriminate]].
    split; [discriminate|]. intros [H|(f' & H & _)]; discriminate.
  - cbn [fst snd]. split; [split; [left|]; reflexivity|].
    split; [intros N; exfalso; apply N; reflexivity|]. intros _. destruct sd; reflexivity.
Qed.

(** Before that there is none. *)
Theorem C88_none : forall U s sd f ops, plain_classes U ->
  let s1 := snd (f_step U s (FNew sd f)) in
  fst (f_step U s (FNew sd f)) = Ok tt ->
  no_assignment U s1 (length (cs_holders s)) ops ->
  exists h, nth_error (cs_holders (f_run U ops s1)) (length (cs_holders s)) = Some h /\
    ho_alg h = SNone.
Proof.
  intros U s sd f ops PC s1 K A. destruct (new_holder U s sd f K) as (f' & _ & N).
  destruct (run_alg U ops s1 _ _ PC N A) as (h & N' & E & _). exists h. split; assumption.
Qed.

(** Assignment of an id succeeds exactly if the factory returns a class of the right
    interface whose object can be created. *)
Theorem C88_accepted : forall U s p h x, nth_error (cs_holders s) p = Some h ->
  (fst (f_step U s (FSetId p x)) = Ok tt <->
   exists id e a, x = NStr id /\ offers U s (ho_factory h) id e /\
     class_for_side (ho_side h) e a /\ creates U (calls_after s (ho_factory h)) a).
Proof.
  intros U s p h x N. split.
  - intros K. assert (D : exists id, x = NStr id).
    { cbn [f_step] in K. rewrite N in K. destruct x; try discriminate. eauto. }
    destruct D as (id & ->).
    destruct (set_id_ok U s p h id N) as [(e & a & O & CL & CR & _)|(_ & (y & E) & _)]; [|congruence].
    exists id, e, a. auto.
  - intros (id & e & a & -> & O & CL & CR).
    destruct (set_id_ok U s p h id N) as [(_ & _ & _ & _ & _ & K & _)|(F & _)]; [exact K|].
    destruct (F e a O CL CR).
Qed.

(** A refused id is stored all the same; algorithm and factory stay. *)
Theorem C88_refused : forall U s p h id x, plain_classes U ->
  nth_error (cs_holders s) p = Some h ->
  fst (f_step U s (FSetId p (NStr id))) = Raise x ->
  nth_error (cs_holders (snd (f_step U s (FSetId p (NStr id))))) p =
    Some (mkHolder (ho_side h) (Some id) (ho_factory h) (ho_alg h)).
Proof.
  intros U s p h id x PC N K.
  destruct (set_id_ok U s p h id N) as [(e & a & _ & _ & _ & K' & _)|(_ & _ & sl & S & N')]; [congruence|].
  rewrite N'. destruct S as [->|[(k & n & _ & M)|(k & n & _ & M)]]; [reflexivity| |];
    destruct (PC k n); congruence.
Qed.

(** Operations on one policy leave the others alone; registering leaves all policies
    alone; nothing but registering changes a table. *)
Theorem C88_separate : forall U s o p h, ~ about o p -> nth_error (cs_holders s) p = Some h ->
  nth_error (cs_holders (snd (f_step U s o))) p = Some h.
Proof. exact step_other. Qed.

Theorem C88_tables : forall U s o d id,
  dict_get id (cs_tables (snd (f_step U s o)) d) =
  match o with
  | FRegister d' id' e => if Nat.eqb d d' && String.eqb id id' then Some e
                          else dict_get id (cs_tables s d)
  | _ => dict_get id (cs_tables s d)
  end%bool.
Proof.
  intros U s o d id. rewrite step_tables. destruct o as [d' id' e| | |]; try reflexivity.
  destruct (Nat.eqb_spec d d') as [->|]; cbn; [|reflexivity].
  rewrite UtilsFacts.dict_get_set. reflexivity.
Qed.

(** A class registered in the table of a factory is there for every policy that uses the
    table, whenever it was made. *)
Theorem C88_registered : forall U s d id e a p h sd,
  let s1 := snd (f_step U s (FRegister d id e)) in
  nth_error (cs_holders s) p = Some h -> ho_factory h = FTable sd d ->
  class_for_side (ho_side h) (Some e) a -> creates U (cs_calls s) a ->
  fst (f_step U s1 (FSetId p (NStr id))) = Ok tt /\
  nth_error (cs_holders (snd (f_step U s1 (FSetId p (NStr id))))) p =
    Some (mkHolder (ho_side h) (Some id) (FTable sd d) (SAlg a)).
Proof.
  intros U s d id e a p h sd s1 N F CL CR.
  assert (N1 : nth_error (cs_holders s1) p = Some h) by exact N.
  assert (O : offers U s1 (ho_factory h) id (Some e)).
  { rewrite F. cbn [offers]. unfold s1. rewrite C88_tables, Nat.eqb_refl, String.eqb_refl. reflexivity. }
  destruct (set_id_ok U s1 p h id N1) as [(e' & a' & O' & CL' & _ & K & N')|(X & _)].
  - split; [exact K|]. rewrite N', F.
    rewrite F in O, O'. cbn [offers] in O, O'. rewrite O in O'. subst e'.
    apply fits_class in CL, CL'. rewrite CL in CL'. injection CL' as ->. reflexivity.
  - destruct (X (Some e) a O CL). rewrite F. exact CR.
Qed.

(** The factory is the one last accepted: of the right kind, else TypeError. *)
Theorem C88_factory : forall U s p x h, nth_error (cs_holders s) p = Some h ->
  (exists f, x = GFactory f /\ factory_side f = ho_side h /\
     fst (f_step U s (FSetFactory p x)) = Ok tt /\
     nth_error (cs_holders (snd (f_step U s (FSetFactory p x)))) p =
       Some (mkHolder (ho_side h) (ho_id h) f (ho_alg h))) \/
  ((forall f, x = GFactory f -> factory_side f <> ho_side h) /\
   f_step U s (FSetFactory p x) = (Raise ETypeError, s)).
Proof. exact step_factory. Qed.

(** The id of a policy need not name its algorithm: a class registered under the id later
    does not reach it. *)
Definition RFA : string := "urn:oasis:names:tc:xacml:1.0:rule-combining-algorithm:first-applicable".
Definition exU : uenv := mkUenv (fun k n id => Raise EKeyError) (fun k n => MadeObject).

Theorem C88_current_refuted : exists U ops p h e a,
  let s := f_run U ops cstate_start in
  plain_classes U /\ nth_error (cs_holders s) p = Some h /\ ho_id h = Some RFA /\
  offers U s (ho_factory h) RFA e /\ class_for_side (ho_side h) e a /\ ho_alg h <> SAlg a /\
  exists b, ho_alg h = SAlg b.
Proof.
  exists exU, [FNew ForRules None; FSetId 0 (NStr RFA); FRegister 0 RFA (EnClass true false (User 1))],
    0, (mkHolder ForRules (Some RFA) (FTable ForRules 0) (SAlg (Std FirstApplicable))),
    (Some (EnClass true false (User 1))), (User 1).
  cbn zeta. split; [intros k n; split; discriminate|].
  split; [vm_compute; reflexivity|]. split; [reflexivity|]. split; [vm_compute; reflexivity|].
  split; [exists false; reflexivity|]. split; [discriminate|]. eexists. reflexivity.
Qed.

Example C88_case :
  let s := f_run exU
    [FNew ForRules None; FNew ForPolicies None;
     FRegister 0 "mine" (EnClass true false (User 1)); FSetId 0 (NStr "mine");
     FRegister 1 "mine" (EnClass true false (User 1)); FSetId 1 (NStr "mine");
     FNew ForRules None; FSetId 2 (NStr RFA); FSetId 2 (NInt 1);
     FSetFactory 2 (GFactory (FUser ForRules 5)); FSetId 2 (NStr "mine");
     FSetFactory 2 (GFactory (FTable ForPolicies 1))] cstate_start in
  cs_holders s =
    [mkHolder ForRules (Some "mine") (FTable ForRules 0) (SAlg (User 1));
     mkHolder ForPolicies (Some "mine") (FTable ForPolicies 1) SNone;
     mkHolder ForRules (Some "mine") (FUser ForRules 5) (SAlg (Std FirstApplicable))]%string.
Proof. vm_compute. reflexivity. Qed.

Print Assumptions C87_rules.
Print Assumptions C87_rules_only.
Print Assumptions C87_policies.
Print Assumptions C87_policies_only.
Print Assumptions C87_target_first.
Print Assumptions C87_target_error.
Print Assumptions C87_contained.
Print Assumptions C87_standard.
Print Assumptions C87_exchange.
Print Assumptions C87_taken.
Print Assumptions C87_unlike_any.
Print Assumptions C87_spoiled.
Print Assumptions C87_response.
Print Assumptions C87_permit_from_rule.
Print Assumptions C88_installed.
Print Assumptions C88_new.
Print Assumptions C88_none.
Print Assumptions C88_accepted.
Print Assumptions C88_refused.
Print Assumptions C88_separate.
Print Assumptions C88_tables.
Print Assumptions C88_registered.
Print Assumptions C88_factory.
Print Assumptions C88_current_refuted.
