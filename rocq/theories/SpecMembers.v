(** Notions used in the statements about the members of all objects (C91). *)
From Verif Require Import Members.
Local Open Scope string_scope.
Local Open Scope list_scope.

(** The classes whose constructors leave out that of the base class. *)
Inductive leaves_out_base : mclass -> Prop :=
| lo_match : forall k, leaves_out_base (MLibrary (CCore (KMatch k)))
| lo_target : leaves_out_base (MLibrary (CCore KTarget))
| lo_obligation : leaves_out_base (MLibrary (CCore KObligation)).

(** The classes that are not derived from XacmlCoreBase. *)
Inductive without_members : mclass -> Prop :=
| wm_pdp : without_members (MLibrary (CCore KPdp))
| wm_effect : without_members (MLibrary CEffect)
| wm_decision : forall d, without_members (MLibrary (CDecision d)).

(** The classes derived from XacmlPolicyBase. *)
Inductive policy_based : mclass -> Prop :=
| pb_child : forall k, policy_based (MLibrary (CCore (KTargetChild k)))
| pb_user : forall n, policy_based (MUser OnPolicy n)
| pb_user_child : forall t n, policy_based (MUser (OnTargetChild t) n).

(** Classes objects can be made of: those of the library apart from the three that are not
    implemented, and those of the user that have a local name, and a match type if they
    are derived from TargetChildBase. *)
Inductive complete : mclass -> Prop :=
| co_library : forall c, complete (MLibrary c)
| co_core : forall s, complete (MUser OnCore (Some (Some s)))
| co_policy : forall s, complete (MUser OnPolicy (Some (Some s)))
| co_context : forall s, complete (MUser OnContext (Some (Some s)))
| co_child : forall s, complete (MUser (OnTargetChild true) (Some (Some s))).

(** The latest string assigned to xmlns of object [i], the latest value assigned to elem. *)
Fixpoint last_xmlns (i : nat) (ops : list mop) : option string :=
  match ops with
  | [] => None
  | o :: rest =>
      match last_xmlns i rest, o with
      | Some s, _ => Some s
      | None, MSetXmlns j (PNat (NStr s)) => if Nat.eqb j i then Some s else None
      | None, _ => None
      end
  end.
Fixpoint last_elem (i : nat) (ops : list mop) : option pval :=
  match ops with
  | [] => None
  | o :: rest =>
      match last_elem i rest, o with
      | Some v, _ => Some v
      | None, MSetElem j v => if Nat.eqb j i then Some v else None
      | None, _ => None
      end
  end.

(** The classes whose copies are made of the members of XacmlCoreBase alone. *)
Inductive copied_by_members : ccls -> Prop :=
| cm_condition : copied_by_members (CCore KCondition)
| cm_child : forall k, copied_by_members (CCore (KTargetChild k))
| cm_rule : copied_by_members (CCore KRule)
| cm_defaults : copied_by_members (CCore KPolicyDefaults)
| cm_policy : copied_by_members (CCore KPolicy)
| cm_policyset : copied_by_members (CCore KPolicySet)
| cm_status : copied_by_members CStatus
| cm_status_code : copied_by_members CStatusCode.
