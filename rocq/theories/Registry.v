(** Policy registries of the finders
    (finder/policyfinderbase.py:19-83, finder/localpolicyfinder.py:15-48). *)
From Verif Require Import Base Syntax.

(** policyMap and policySetMap.  The key is the policy's id, None for a policy
    whose id was never set. *)
Record registry := mkRegistry {
  rg_policies : list (option string * policybase);
  rg_sets : list (option string * policybase) }.

(** PolicyFinderBase.__init__, policyfinderbase.py:25-27 *)
Definition registry0 : registry := mkRegistry [] [].

Fixpoint key_get (k : option string) (d : list (option string * policybase)) : option policybase :=
  match d with
  | [] => None
  | (k', p) :: d' => if opt_eqb String.eqb k k' then Some p else key_get k d'
  end.

Definition key_mem (k : option string) (d : list (option string * policybase)) : bool :=
  match key_get k d with Some _ => true | None => false end.

(** PolicyFinderBase.addPolicyReference, policyfinderbase.py:63-72; a policy set
    has no attribute policyId. *)
Definition add_policy (g : registry) (p : policybase) : res registry :=
  match p with
  | PPolicy m _ _ _ =>
      if key_mem (pm_id m) (rg_policies g) then Raise EXMLParseError
      else Ok (mkRegistry (rg_policies g ++ [(pm_id m, p)]) (rg_sets g))
  | PPolicySet _ _ _ _ => Raise EAttributeError
  end.

(** PolicyFinderBase.addPolicySetReference, policyfinderbase.py:74-83 *)
Definition add_policy_set (g : registry) (p : policybase) : res registry :=
  match p with
  | PPolicySet m _ _ _ =>
      if key_mem (pm_id m) (rg_sets g) then Raise EXMLParseError
      else Ok (mkRegistry (rg_policies g) (rg_sets g ++ [(pm_id m, p)]))
  | PPolicy _ _ _ _ => Raise EAttributeError
  end.

(** LocalPolicyFinder.findPolicy, localpolicyfinder.py:20-33 *)
Definition local_find_policy (g : registry) (ref : string) : res policybase :=
  match key_get (Some ref) (rg_policies g) with
  | Some p => Ok p
  | None => Raise EXMLParseError
  end.

(** LocalPolicyFinder.findPolicySet, localpolicyfinder.py:35-48 *)
Definition local_find_policy_set (g : registry) (ref : string) : res policybase :=
  match key_get (Some ref) (rg_sets g) with
  | Some p => Ok p
  | None => Raise EXMLParseError
  end.

(** A program that registers policies and looks them up. *)
Inductive rgop : Type :=
| RAdd (p : policybase) | RAddSet (p : policybase)
| RFind (ref : string) | RFindSet (ref : string).

Definition rg_step (g : registry) (o : rgop) : res unit * registry :=
  let changed (r : res registry) := match r with Ok g' => (Ok tt, g') | Raise e => (Raise e, g) end in
  let asked (r : res policybase) := match r with Ok _ => (Ok tt, g) | Raise e => (Raise e, g) end in
  match o with
  | RAdd p => changed (add_policy g p)
  | RAddSet p => changed (add_policy_set g p)
  | RFind ref => asked (local_find_policy g ref)
  | RFindSet ref => asked (local_find_policy_set g ref)
  end.

Definition rg_run (ops : list rgop) (g : registry) : registry :=
  fold_left (fun g o => snd (rg_step g o)) ops g.
