(** Notions used in the statements about function maps shared by threads. *)
From Verif Require Import FuncMapThreads SpecFuncMap.
From Coq Require Import Lia.

(** The process: the map after the operations [before], then one thread for each list
    of operations. *)
Definition start_m (cm : list (string * avclass)) (depth : nat) (before : list fop)
  (threads : list (list fop)) : list (MT (list (res (option fclass)))) * fmap :=
  (map (ops_m cm depth) threads, fm_run cm before fm_new).

(** After the schedule thread [i] has finished, with these outcomes of its
    operations. *)
Definition finished_m (cm : list (string * avclass)) (depth : nat) (before : list fop)
  (threads : list (list fop)) (sched : list nat) (i : nat) (rs : list (res (option fclass))) : Prop :=
  nth_error (fst (run_schedule_m sched (start_m cm depth before threads))) i = Some (MDone (Ok rs)).

(** The function map after the schedule, wherever in their operations the threads are. *)
Definition map_after (cm : list (string * avclass)) (depth : nat) (before : list fop)
  (threads : list (list fop)) (sched : list nat) : fmap :=
  snd (run_schedule_m sched (start_m cm depth before threads)).

(** Operation number [j] of thread [i] is [o] and had outcome [r]. *)
Definition outcome_m (cm : list (string * avclass)) (depth : nat) (before : list fop)
  (threads : list (list fop)) (sched : list nat) (i j : nat) (o : fop) (r : res (option fclass)) : Prop :=
  exists ops rs, nth_error threads i = Some ops /\ nth_error ops j = Some o /\
    finished_m cm depth before threads sched i rs /\ nth_error rs j = Some r.

(** The class that an operation puts under the identifier: by load_custom_function,
    unless the identifier is a standard one, or by item assignment. *)
Definition installs (id : string) (o : fop) (c : fclass) : Prop :=
  match o with
  | FLoadCustom i src => i = id /\ ~ In id FUNCTION_NAMES /\ yields src = Some c
  | FSetItem i v => i = id /\ v = Some c
  | _ => False
  end.

(** Some operation of some thread does. *)
Definition installed_by_some (threads : list (list fop)) (id : string) (c : fclass) : Prop :=
  exists ops o, In ops threads /\ In o ops /\ installs id o c.
Definition deleted_by_some (threads : list (list fop)) (id : string) : Prop :=
  exists ops, In ops threads /\ In (FDelItem id) ops.

(** What the sequential operations give for the identifier after [before]. *)
Definition expected (cm : list (string * avclass)) (before : list fop) (id : string) : res fclass :=
  match last_custom id before with
  | Some c => Ok c
  | None => resolve cm id
  end.

(** Outcomes of the operations one after the other, in one thread. *)
Definition one_outcome (cm : list (string * avclass)) (o : fop) (m : fmap) : res (option fclass) :=
  match o with
  | FGetItem id => match fst (fm_getitem cm id m) with Ok c => Ok (Some c) | Raise e => Raise e end
  | FGet id => fst (fm_get cm id m)
  | FLoad id => match fst (fm_load cm id m) with Ok _ => Ok None | Raise e => Raise e end
  | FLoadAll => match fst (fm_load_all cm FUNCTION_NAMES m) with Ok _ => Ok None | Raise e => Raise e end
  | FLoadCustom id src => match fst (fm_load_custom id src m) with Ok _ => Ok None | Raise e => Raise e end
  | FSetItem id v => match fst (fm_setitem id v m) with Ok _ => Ok None | Raise e => Raise e end
  | FDelItem id => match fst (fm_delitem id m) with Ok _ => Ok None | Raise e => Raise e end
  end.
Fixpoint outcomes_alone (cm : list (string * avclass)) (ops : list fop) (m : fmap)
  : list (res (option fclass)) :=
  match ops with
  | [] => []
  | o :: rest => one_outcome cm o m :: outcomes_alone cm rest (fm_step cm o m)
  end.
