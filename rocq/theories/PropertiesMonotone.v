(** C96: attributes withheld from a request gain nothing under policies that
    only grant, or only deny, and use no negation. *)
From Verif Require Import Eval SpecEval SpecStandard SpecMonotone Sample StandardFacts MonotoneFacts.

(** ** C96 *)

(** What a designator retrieves from a request is among what it retrieves from
    one that holds more. *)
Theorem C96_retrieved : forall E r r' d et vs et' vs',
  rq_ctxHandler r = None -> rq_ctxHandler r' = None -> holds_more r r' ->
  eval_designator E d (CtxRequest r) = Ok (PBag et vs) ->
  eval_designator E d (CtxRequest r') = Ok (PBag et' vs') ->
  et' = et /\ incl vs vs'.
Proof.
  intros E r r' d et vs et' vs' Hr Hr' Hm H H'.
  pose proof (designator_grows E r r' Hr Hr' Hm d _ _ H H') as G.
  destruct (grows_bag_inv _ _ _ G) as (l & [= -> ->] & I). auto.
Qed.

(** A condition without negation that holds goes on holding. *)
Theorem C96_condition : forall E r r' x b,
  rq_ctxHandler r = None -> rq_ctxHandler r' = None -> holds_more r r' ->
  positive x = true ->
  eval_expr E (CtxRequest r) x = Ok (PNat (NBool true)) ->
  eval_expr E (CtxRequest r') x = Ok (PNat (NBool b)) -> b = true.
Proof.
  intros E r r' x b Hr Hr' Hm Hp H H'.
  pose proof (expr_grows E r r' Hr Hr' Hm x _ _ Hp H H') as G. now inversion G.
Qed.

(** A target that matches goes on matching. *)
Theorem C96_target : forall E r r' t b,
  rq_ctxHandler r = None -> rq_ctxHandler r' = None -> holds_more r r' ->
  (forall m, In m (matches_of t) -> mt_designator m <> None) ->
  target_match E (CtxRequest r) t = Ok true ->
  target_match E (CtxRequest r') t = Ok b -> b = true.
Proof.
  intros E r r' t b Hr Hr' Hm Hd H H'.
  exact (test_target_grows E r r' Hr Hr' Hm t true b Hd H H' eq_refl).
Qed.

(** A policy or policy set, of any depth, whose rules all grant: what is
    permitted stays permitted when the request holds more. *)
Theorem C96_permit : forall E r r' p,
  rq_ctxHandler r = None -> rq_ctxHandler r' = None -> holds_more r r' ->
  only EffPermit p -> positive_policy p ->
  boolean_valued E (CtxRequest r) p -> without_errors E (CtxRequest r') p ->
  policy_eval E (CtxRequest r) p = Ok Permit ->
  policy_eval E (CtxRequest r') p = Ok Permit.
Proof.
  intros E r r' p Hr Hr' Hm Ho Hp Hb Hw H.
  rewrite (proj1 (clean_exact E _ p Hw)). f_equal.
  apply (standard_grows E r r' EffPermit Hr Hr' Hm p Hp Ho (or_introl eq_refl) Hw).
  now apply (half_holds E (CtxRequest r) p _ Hb H).
Qed.

(** One whose rules all deny: what is denied stays denied, and a request that
    holds more is not granted by leaving something out. *)
Theorem C96_deny : forall E r r' p,
  rq_ctxHandler r = None -> rq_ctxHandler r' = None -> holds_more r r' ->
  only EffDeny p -> positive_policy p ->
  without_errors E (CtxRequest r) p -> without_errors E (CtxRequest r') p ->
  policy_eval E (CtxRequest r) p = Ok Deny ->
  policy_eval E (CtxRequest r') p = Ok Deny.
Proof.
  intros E r r' p Hr Hr' Hm Ho Hp Hw Hw' H.
  rewrite (proj1 (clean_exact E _ p Hw')). f_equal.
  apply (standard_grows E r r' EffDeny Hr Hr' Hm p Hp Ho (or_intror Hw) Hw').
  rewrite (proj1 (clean_exact E _ p Hw)) in H. now injection H.
Qed.

(** Policies of one effect never decide the other one. *)
Theorem C96_range : forall E c e p, without_errors E c p -> only e p ->
  policy_eval E c p = Ok NotApplicable \/
  policy_eval E c p = Ok (match e with EffPermit => Permit | EffDeny => Deny end).
Proof.
  intros E c e p Hw Ho. rewrite (proj1 (clean_exact E c p Hw)).
  destruct (clean_ranged E c e p Hw Ho) as [-> | ->]; [right|left]; reflexivity.
Qed.

(** ** Where leaving something out does gain *)

(** [sreq] with a role more, an attribute more, and the roles grouped anew *)
Definition more_req : request :=
  mkRequest
    [mkSubject None [sattr "role" [sstr "admin"; sstr "operator"; sstr "guest"; sstr "staff"]];
     mkSubject None [sattr "name" [sstr "eve"]; sattr "group" [sstr "x"]]]
    (rq_resources sreq) (rq_action sreq) (Some [sattr "hour" [sstr "noon"]]) None None.
(** and with a second action *)
Definition two_actions : request :=
  mkRequest (rq_subjects sreq) (rq_resources sreq)
    (Some [sattr "action" [sstr "read"; sstr "write"]]) (Some []) None None.

Ltac pick := cbn; first [left; reflexivity|right; pick].
Tactic Notation "found" int_or_var(n) :=
  do 2 eexists; split; [reflexivity|]; split;
  [do n right; left; reflexivity|]; repeat (split; [reflexivity|]); pick.
Ltac holding :=
  intros k id dt iss v (attrs & a & Hs & Ha & <- & <- & <- & Hv);
  destruct k; injection Hs as <-; cbn in Ha;
  repeat (destruct Ha as [<-|Ha];
    [cbn in Hv; repeat (destruct Hv as [<-|Hv];
       [solve [found 0|found 1|found 2|found 3]|]); destruct Hv|]);
  destruct Ha.

Lemma more_more : holds_more sreq more_req.
Proof. holding. Qed.
Lemma two_more : holds_more sreq two_actions.
Proof. holding. Qed.

(** Rules that deny. *)
Definition p_denying : policybase :=
  spol None DenyOverrides [srule EffPermit (Some t_staff) None; srule EffDeny (Some t_admin) None].
(** A permit only policy with not: those who are not admin. *)
Definition x_admin : expr :=
  XApply None (Some (FnAtLeastOne StringAV))
    [XApply None (Some (FnBag StringAV)) [XValue (sstr "admin")];
     XDesignator (sdes DSubject "role" false)].
Definition p_not : policybase :=
  spol None DenyOverrides
    [srule EffPermit (Some t_staff) (Some (XApply None (Some FnNot) [x_admin]))].
(** A permit only policy that needs a single action. *)
Definition p_single : policybase := spol None DenyOverrides [r_permit].

Theorem C96_deny_rule_refuted : exists E r r' p,
  rq_ctxHandler r = None /\ rq_ctxHandler r' = None /\ holds_more r r' /\
  positive_policy p /\
  without_errors E (CtxRequest r) p /\ without_errors E (CtxRequest r') p /\
  policy_eval E (CtxRequest r) p = Ok Permit /\ policy_eval E (CtxRequest r') p = Ok Deny.
Proof.
  exists sE, sreq, more_req, p_denying.
  repeat (split; [first [exact more_more|apply positive_check_ok|apply clean_check_ok|idtac];
                  vm_compute; reflexivity || exact more_more|]); vm_compute; reflexivity.
Qed.

Theorem C96_not_refuted : exists E r r' p,
  rq_ctxHandler r = None /\ rq_ctxHandler r' = None /\ holds_more r r' /\
  only EffPermit p /\
  without_errors E (CtxRequest r) p /\ without_errors E (CtxRequest r') p /\
  policy_eval E (CtxRequest r) p = Ok Permit /\ policy_eval E (CtxRequest r') p = Ok NotApplicable.
Proof.
  exists sE, sreq, more_req, p_not.
  split; [reflexivity|]. split; [reflexivity|]. split; [exact more_more|].
  split; [intros r [<-|[]]; reflexivity|].
  split; [apply clean_check_ok; vm_compute; reflexivity|].
  split; [apply clean_check_ok; vm_compute; reflexivity|].
  split; vm_compute; reflexivity.
Qed.

(** An error the longer request meets: one-and-only finds two values. *)
Theorem C96_error_refuted : exists E r r' p,
  rq_ctxHandler r = None /\ rq_ctxHandler r' = None /\ holds_more r r' /\
  only EffPermit p /\ positive_policy p /\ without_errors E (CtxRequest r) p /\
  policy_eval E (CtxRequest r) p = Ok Permit /\ policy_eval E (CtxRequest r') p = Ok Indeterminate.
Proof.
  exists sE, sreq, two_actions, p_single.
  split; [reflexivity|]. split; [reflexivity|]. split; [exact two_more|].
  split; [intros r [<-|[]]; reflexivity|].
  split; [apply positive_check_ok; vm_compute; reflexivity|].
  split; [apply clean_check_ok; vm_compute; reflexivity|].
  split; vm_compute; reflexivity.
Qed.

(** ** Cases *)

Definition p_granting : policybase :=
  sset (Some t_staff) DenyOverrides
    [spol (Some t_admin) PermitOverrides [srule EffPermit None (Some x_admin)];
     sset None FirstApplicable
       [spol None DenyOverrides [srule EffPermit (Some t_admin) (Some x_read); r_permit]]].
Definition p_refusing : policybase :=
  sset None PermitOverrides
    [spol None FirstApplicable [srule EffDeny (Some t_admin) None; r_deny]].

Example C96_case :
  holds_more sreq more_req /\ ~ holds_more more_req sreq /\
  only EffPermit p_granting /\ positive_policy p_granting /\
  boolean_valued sE sctx p_granting /\ without_errors sE (CtxRequest more_req) p_granting /\
  policy_eval sE sctx p_granting = Ok Permit /\
  only EffDeny p_refusing /\ positive_policy p_refusing /\
  without_errors sE sctx p_refusing /\ without_errors sE (CtxRequest more_req) p_refusing /\
  policy_eval sE sctx p_refusing = Ok Deny /\
  policy_eval sE (CtxRequest (mkRequest [] (rq_resources sreq) (rq_action sreq) (Some []) None None))
    p_granting = Ok NotApplicable.
Proof.
  split; [exact more_more|].
  split.
  { intros H. destruct (H DEnvironment (Some "hour") (Some (xs "string")) None (sstr "noon"))
      as (l & a & Hl & Ha & _).
    - do 2 eexists. split; [reflexivity|]. split; [left; reflexivity|].
      repeat (split; [reflexivity|]). left; reflexivity.
    - injection Hl as <-. destruct Ha. }
  split; [intros r Hr; repeat (destruct Hr as [<-|Hr]; [reflexivity|]); destruct Hr|].
  split; [apply positive_check_ok; vm_compute; reflexivity|].
  split; [apply clean_boolean, clean_check_ok; vm_compute; reflexivity|].
  split; [apply clean_check_ok; vm_compute; reflexivity|].
  split; [vm_compute; reflexivity|].
  split; [intros r Hr; repeat (destruct Hr as [<-|Hr]; [reflexivity|]); destruct Hr|].
  split; [apply positive_check_ok; vm_compute; reflexivity|].
  split; [apply clean_check_ok; vm_compute; reflexivity|].
  split; [apply clean_check_ok; vm_compute; reflexivity|].
  split; vm_compute; reflexivity.
Qed.

Print Assumptions C96_retrieved.
Print Assumptions C96_condition.
Print Assumptions C96_target.
Print Assumptions C96_permit.
Print Assumptions C96_deny.
Print Assumptions C96_range.
Print Assumptions C96_deny_rule_refuted.
Print Assumptions C96_not_refuted.
Print Assumptions C96_error_refuted.
