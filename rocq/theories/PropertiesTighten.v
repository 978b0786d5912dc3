(** C103: edits meant to make a policy stricter grant nothing. *)
From Verif Require Import Eval SpecEval SpecStandard SpecMonotone SpecTighten Sample StandardFacts MonotoneFacts TightenFacts.

(** ** C103 *)

(** What the stricter policy permits, the one before permitted, if that met no
    errors.  The stricter one may meet errors. *)
Theorem C103_grants : forall E c p p',
  tightened p p' -> without_errors E c p ->
  policy_eval E c p' = Ok Permit -> policy_eval E c p = Ok Permit.
Proof. intros E c p p' H Hw. apply (tight E c p p' H Hw). Qed.

(** Nor does a refusal give way to no decision, which other policies might turn
    into Permit. *)
Theorem C103_refusals : forall E c p p',
  tightened p p' -> without_errors E c p -> policy_eval E c p = Ok Deny ->
  exists o, policy_eval E c p' = o /\ o <> Ok Permit /\ o <> Ok NotApplicable.
Proof.
  intros E c p p' H Hw D. destruct (tight E c p p' H Hw) as (K1 & K2).
  eexists. split; [reflexivity|]. split; intro K.
  - rewrite (K1 K) in D. discriminate.
  - destruct (K2 K); congruence.
Qed.

(** One edit after another, where the policies edited meet no errors. *)
Theorem C103_history : forall E c p p',
  edits E c p p' -> policy_eval E c p' = Ok Permit -> policy_eval E c p = Ok Permit.
Proof.
  induction 1 as [|p q r Hw Ht _ IH]; intro H; [exact H|].
  exact (C103_grants E c p q Ht Hw (IH H)).
Qed.

(** A policy left as it is counts among the edits, so any part may be left. *)
Theorem C103_unchanged : forall E c p, without_errors E c p -> tightened p p.
Proof. exact tight_same. Qed.

(** *** Examples *)
Definition permit_all : rule := srule EffPermit None None.
Definition deny_admin : rule := srule EffDeny (Some t_admin) None.
(** Where the policy before meets an error the edit may grant: the Permit rule
    that raised the error is removed. *)
Theorem C103_error_refuted : exists E c p p',
  tightened p p' /\ policy_eval E c p = Ok Indeterminate /\ policy_eval E c p' = Ok Permit.
Proof.
  exists sE, sctx, (spol None FirstApplicable [r_perr; permit_all]), (spol None FirstApplicable [permit_all]).
  split; [|split; vm_compute; reflexivity].
  constructor; [left; reflexivity|left; reflexivity|].
  apply ERemoved; [reflexivity|]. apply EChanged; [|constructor].
  apply TPermits; try reflexivity. left. reflexivity.
Qed.
(** So it may where one is made narrower: it raised the error in its
    condition. *)
Theorem C103_narrowed_error_refuted : exists E c p p',
  tightened p p' /\ policy_eval E c p = Ok Indeterminate /\ policy_eval E c p' = Ok Permit.
Proof.
  exists sE, sctx,
    (spol None FirstApplicable [srule EffPermit None (Some (XDesignator (sdes DAction "none" true))); permit_all]),
    (spol None FirstApplicable [srule EffPermit (Some t_admin) (Some (XDesignator (sdes DAction "none" true))); permit_all]).
  split; [|split; vm_compute; reflexivity].
  constructor; [left; reflexivity|left; reflexivity|].
  apply EChanged; [|apply EChanged; [|constructor]].
  - apply TPermits; try reflexivity. right. left. reflexivity.
  - apply TPermits; try reflexivity. left. reflexivity.
Qed.
(** And a policy that denies must keep its target. *)
Theorem C103_target_refuted : exists E c p p' rules rest,
  p = spol None DenyOverrides rules /\ p' = spol (Some t_admin) DenyOverrides rules /\
  without_errors E c (sset None FirstApplicable (p :: rest)) /\
  policy_eval E c (sset None FirstApplicable (p :: rest)) = Ok Deny /\
  policy_eval E c (sset None FirstApplicable (p' :: rest)) = Ok Permit.
Proof.
  exists sE, sctx, (spol None DenyOverrides [r_deny]), (spol (Some t_admin) DenyOverrides [r_deny]),
    [r_deny], [spol None DenyOverrides [permit_all]].
  split; [reflexivity|]. split; [reflexivity|].
  split; [apply clean_check_ok; vm_compute; reflexivity|]. split; vm_compute; reflexivity.
Qed.

(** Two policies before; after, the first has its Permit rule with a longer target
    and a longer condition and a new Deny rule first, the set has a stricter
    algorithm, and there is a further policy that only denies. *)
Definition t_reader : target := stgt [[m_staff; m_read]] [[m_local]] [[m_read]].
Definition tight_before : policybase :=
  sset None PermitOverrides
    [spol None PermitOverrides [r_permit; permit_all; deny_admin];
     spol (Some t_staff) FirstApplicable [permit_all]].
Definition tight_after (admin : option target) : policybase :=
  sset None DenyOverrides
    [spol None FirstApplicable
       [srule EffDeny (Some t_admin) None;
        srule EffPermit (Some t_reader) (Some (XApply None (Some FnAnd) [x_read; x_read]));
        srule EffDeny None None];
     spol admin DenyOverrides [srule EffDeny None None];
     spol (Some t_reader) FirstApplicable [permit_all]].
Lemma tight_edit : forall admin, tightened tight_before (tight_after admin).
Proof.
  assert (N : narrower_target (Some t_staff) (Some t_reader)).
  { split; [|split; [|split]]; try (left; reflexivity); right; (split; [discriminate|]); intros a [<-|[]];
      eexists; (split; [left; reflexivity|]); intros m [<-|[]]; cbn; auto. }
  intro admin. apply TPolicySet; [left; reflexivity|right; left; reflexivity|].
  apply EChanged; [|apply EAdded; [|apply EChanged; [|constructor]]].
  - apply TPolicy; [left; reflexivity|right; left; reflexivity|].
    apply EAdded; [reflexivity|]. apply EChanged; [|apply ERemoved; [reflexivity|apply EChanged; [|constructor]]].
    + apply TPermits; [reflexivity|reflexivity|exact N|]. right. right. exists x_read, None, [x_read; x_read].
      split; [reflexivity|]. split; [left; reflexivity|reflexivity].
    + apply TDenies; [reflexivity|reflexivity|exact I|left; reflexivity].
  - intros r [<-|[]]. reflexivity.
  - apply TPolicy; [right; left|left; reflexivity|].
    + split; [|exact N]. intros r [<-|[]]. reflexivity.
    + apply EChanged; [|constructor]. apply TPermits; try reflexivity. left. reflexivity.
Qed.
Example C103_case :
  without_errors sE sctx tight_before /\
  policy_eval sE sctx (tight_after (Some t_admin)) = Ok Permit /\
  policy_eval sE sctx tight_before = Ok Permit /\
  policy_eval sE sctx (tight_after None) = Ok Deny /\
  policy_eval sE sctx (tight_after (Some t_error)) = Ok Deny.
Proof.
  split; [apply clean_check_ok; vm_compute; reflexivity|].
  repeat split; vm_compute; reflexivity.
Qed.
(** A refusal that stays one. *)
Example C103_refusal_case :
  tightened (spol None DenyOverrides [permit_all; r_deny]) (spol None DenyOverrides [permit_all; srule EffDeny None None]) /\
  without_errors sE sctx (spol None DenyOverrides [permit_all; r_deny]) /\
  policy_eval sE sctx (spol None DenyOverrides [permit_all; r_deny]) = Ok Deny.
Proof.
  split; [|split; [apply clean_check_ok|]; vm_compute; reflexivity].
  apply TPolicy; [left; reflexivity|left; reflexivity|].
  apply EChanged; [|apply EChanged; [|constructor]].
  - apply TPermits; try reflexivity. left. reflexivity.
  - apply TDenies; try reflexivity. left. reflexivity.
Qed.

Print Assumptions C103_grants.
Print Assumptions C103_refusals.
Print Assumptions C103_history.
Print Assumptions C103_unchanged.
Print Assumptions C103_error_refuted.
Print Assumptions C103_narrowed_error_refuted.
Print Assumptions C103_target_refuted.
