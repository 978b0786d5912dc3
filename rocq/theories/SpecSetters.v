(** Notions used in the statements about property setters. *)
From Verif Require Import Setters SpecFuncMap.

(** The last [Some] of a list. *)
Fixpoint last_some {A} (l : list (option A)) : option A :=
  match l with
  | [] => None
  | x :: r => match last_some r with Some a => Some a | None => x end
  end.

(** The string assigned, if it is one. *)
Definition as_string (x : pyobj) : option string :=
  match x with ONat (NStr s) => Some s | _ => None end.

(** The event of the latest operation that has one; the history is given latest
    operation first, [ev before o] is the event of [o] after [before]. *)
Fixpoint latest {O A} (ev : list O -> O -> option A) (rhistory : list O) : option A :=
  match rhistory with
  | [] => None
  | o :: before => match ev (rev before) o with Some a => Some a | None => latest ev before end
  end.

(** ** C33: Python's isinstance for the native types *)
Inductive instance_of : native -> ntype -> Prop :=
| inst_str : forall s, instance_of (NStr s) NTStr
| inst_int : forall z, instance_of (NInt z) NTInt
| inst_bool_int : forall b, instance_of (NBool b) NTInt
| inst_bool : forall b, instance_of (NBool b) NTBool
| inst_float : forall f, instance_of (NFloat f) NTFloat
| inst_datetime : forall z, instance_of (NDateTime z) NTDateTime
| inst_timedelta : forall z, instance_of (NTimeDelta z) NTTimeDelta
| inst_other : forall ty n, instance_of (NOther ty n) (NTOther ty).

(** ** C30: the supported algorithms *)
Definition rule_algorithm (id : string) : option comb_alg :=
  if String.eqb id "urn:oasis:names:tc:xacml:1.0:rule-combining-algorithm:deny-overrides"
  then Some DenyOverrides
  else if String.eqb id "urn:oasis:names:tc:xacml:1.0:rule-combining-algorithm:permit-overrides"
  then Some PermitOverrides
  else if String.eqb id "urn:oasis:names:tc:xacml:1.0:rule-combining-algorithm:first-applicable"
  then Some FirstApplicable
  else None.
Definition policy_algorithm (id : string) : option comb_alg :=
  if String.eqb id "urn:oasis:names:tc:xacml:1.0:policy-combining-algorithm:deny-overrides"
  then Some DenyOverrides
  else if String.eqb id "urn:oasis:names:tc:xacml:1.0:policy-combining-algorithm:permit-overrides"
  then Some PermitOverrides
  else if String.eqb id "urn:oasis:names:tc:xacml:1.0:policy-combining-algorithm:first-applicable"
  then Some FirstApplicable
  else None.

(** The algorithms of the XACML specification, by version, kind and name; and those the
    factories know without an implementation. *)
Definition standard_id (version kind alg : string) : string :=
  ("urn:oasis:names:tc:xacml:" ++ version ++ ":" ++ kind ++ "-combining-algorithm:" ++ alg)%string.
Definition unsupported_policy_algorithm (id : string) : Prop :=
  id = standard_id "1.0" "policy" "only-one-applicable" \/
  exists alg, In alg ["ordered-deny-overrides"; "ordered-permit-overrides"] /\
    id = standard_id "1.1" "policy" alg.
Definition unsupported_rule_algorithm (id : string) : Prop :=
  (exists alg, In alg ["deny-overrides"; "permit-overrides"; "first-applicable"; "only-one-applicable"] /\
     id = standard_id "1.0" "policy" alg) \/
  (exists kind alg, In kind ["rule"; "policy"] /\ In alg ["ordered-deny-overrides"; "ordered-permit-overrides"] /\
     id = standard_id "1.1" kind alg).

(** With custom factories: the table in force after a history, and the algorithm an
    operation installs. *)
Definition factory_after (default : list (string * alg_entry)) (h : list paop)
  : list (string * alg_entry) :=
  match last_some (map (fun o => match o with PASetFactory (OAlgFactory m) => Some m | _ => None end) h)
  with Some m => m | None => default end.
Definition installs (default : list (string * alg_entry)) (h : list paop) (o : paop)
  : option comb_alg :=
  match o with
  | PASetId (ONat (NStr id)) =>
      match dict_get id (factory_after default h) with
      | Some (AlgClass a) => Some a
      | _ => None
      end
  | _ => None
  end.

(** ** C31: what a match takes its values from *)
Definition source_assigned (o : mop) : option (designator + selector) :=
  match o with
  | MSetDesignator (ODesignator d) => Some (inl d)
  | MSetSelector (OSelector s) => Some (inr s)
  | _ => None
  end.

(** The match holds this source and no other. *)
Definition sources (m : matchobj) (s : option (designator + selector)) : Prop :=
  match s with
  | None => mo_designator m = None /\ mo_selector m = None
  | Some (inl d) => mo_designator m = Some d /\ mo_selector m = None
  | Some (inr sl) => mo_designator m = None /\ mo_selector m = Some sl
  end.

(** ** C32: the function an operation loads *)

(** What somebody did with function map [k] apart from the loading itself. *)
Definition m_ops_on (k : nat) (h : list mop) : list fop :=
  flat_map (fun o => match o with MOnMap j f => if Nat.eqb j k then [f] else [] | _ => [] end) h.
(** The entry of a function map: a custom function or what a new map gives. *)
Definition entry (cm : list (string * avclass)) (ops : list fop) (id : string) : res fclass :=
  match last_custom id ops with Some c => Ok c | None => resolve cm id end.
Definition usable (r : res fclass) : option fn :=
  match r with Ok (FImpl f) => Some f | _ => None end.

Definition m_id_after (h : list mop) : option string :=
  last_some (map (fun o => match o with MSetId x => as_string x | _ => None end) h).
Definition m_flag_after (h : list mop) : bool :=
  match last_some (map (fun o => match o with MSetLoad (ONat (NBool b)) => Some b | _ => None end) h)
  with Some b => b | None => true end.
Definition m_map_after (h : list mop) : nat :=
  match last_some (map (fun o => match o with MSetMap (OFunctionMap k) => Some k | _ => None end) h)
  with Some k => k | None => 0 end.
Definition m_loads (cm : list (string * avclass)) (h : list mop) (o : mop) : option fn :=
  match o with
  | MSetId (ONat (NStr id)) =>
      if m_flag_after h then usable (entry cm (m_ops_on (m_map_after h) h) id) else None
  | MFromMap k =>
      match m_id_after h with
      | Some id => usable (entry cm (m_ops_on k h) id)
      | None => None
      end
  | _ => None
  end.

(** The same for Apply objects. *)
Definition a_ops_on (k : nat) (h : list aop) : list fop :=
  flat_map (fun o => match o with AOnMap j f => if Nat.eqb j k then [f] else [] | _ => [] end) h.
Definition a_id_after (h : list aop) : option string :=
  last_some (map (fun o => match o with ASetId x => as_string x | _ => None end) h).
Definition a_flag_after (h : list aop) : bool :=
  match last_some (map (fun o => match o with ASetLoad (ONat (NBool b)) => Some b | _ => None end) h)
  with Some b => b | None => true end.
Definition a_map_after (h : list aop) : nat :=
  match last_some (map (fun o => match o with ASetMap (OFunctionMap k) => Some k | _ => None end) h)
  with Some k => k | None => 0 end.
Definition a_loads (cm : list (string * avclass)) (h : list aop) (o : aop) : option fn :=
  match o with
  | ASetId (ONat (NStr id)) =>
      if a_flag_after h then usable (entry cm (a_ops_on (a_map_after h) h) id) else None
  | AFromMap k =>
      match a_id_after h with
      | Some id => usable (entry cm (a_ops_on k h) id)
      | None => None
      end
  | _ => None
  end.

(** A new object in a program whose function maps are all new. *)
Definition m_start : matchobj * fmaps := (mo_new, fun _ => fm_new).
Definition a_start : applyobj * fmaps := (ao_new, fun _ => fm_new).

(** ** C40: the value assigned, if it belongs to the vocabulary *)
Definition in_vocabulary (vocabulary : list string) (text : pyobj -> option string) (x : pyobj)
  : option string :=
  match text x with
  | Some s => if str_in s vocabulary then Some s else None
  | None => None
  end.
