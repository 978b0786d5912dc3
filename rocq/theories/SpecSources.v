(** Notions used to state what loading a policy from a source does. *)
From Verif Require Import Sources SpecRead.
Open Scope string_scope.

(** [d] is the directory part of the path [p]: all before the last slash, without
    slashes at its end; slashes only if there is nothing else; nothing if there is no
    slash. *)
Definition slashes (s : string) : Prop := exists n, s = Nat.iter n (String "/") EmptyString.
Definition has_slash (s : string) : Prop := exists a b, s = a ++ "/" ++ b.
Inductive directory : string -> string -> Prop :=
| dir_none : forall f, ~ has_slash f -> directory f ""
| dir_root : forall s f, slashes s -> s <> "" -> ~ has_slash f -> directory (s ++ f) s
| dir_some : forall d s f, slashes s -> s <> "" -> ~ has_slash f ->
    (exists d' c, d = d' ++ String c "" /\ c <> "/"%char) -> directory (d ++ s ++ f) d.

(** The operations that read a source with the finder [i]. *)
Inductive loads_with (i : nat) : op -> world -> source -> Prop :=
| loads_new : forall w s, loads_with i (OFromSource w s FacETree (FaFinder i)) w s
| loads_set : forall j w s, loads_with i (OSetFromSource j w s FacETree (FaFinder i)) w s.

(** The PDP an operation is about, in a state: the one given or the one it makes. *)
Definition about (o : op) (st : program) (j : nat) : Prop :=
  match o with
  | ONewFinder _ => False
  | ONewPdp _ | OFromSource _ _ _ _ => j = List.length (ap_pdps st)
  | OSetFromSource i _ _ _ _ | OSetPolicy i _ => j = i
  end.

(** The finder [i] is of kind [fd] and holds the policies [K], no two with one name. *)
Definition finder_holds (st : program) (i : nat) (fd : finder) (K : list policybase) : Prop :=
  NoDup (map name_of K) /\ exists F, nth_error (ap_finders st) i = Some (fd, mkFstate (holding K) F).

(** The policy an operation gives to the PDP it is about, when it succeeds: the one
    assigned or what the source says. *)
Inductive gives (RE : renv) (st : program) : op -> option policybase -> Prop :=
| gives_new_none : gives RE st (ONewPdp None) None
| gives_new : forall p, gives RE st (ONewPdp (Some (APolicy p))) (Some p)
| gives_set : forall j p, gives RE st (OSetPolicy j (APolicy p)) (Some p)
| gives_finder : forall i o w s n fd K K' urls p,
    loads_with i o w s -> parse_source w s = Ok n -> finder_holds st i fd K ->
    reads RE (w_fetch w) fd n K K' urls p ->
    gives RE st o (Some p)
| gives_path : forall w path n fa base K' urls p,
    fa = FaNone \/ fa = FaOther false ->
    w_file w path = Ok n ->
    (w_exists w path = true /\ (exists d, base = Some d /\ directory path d) \/
     w_exists w path = false /\ base = None) ->
    reads RE (w_fetch w) (UrlFinder base) n [] K' urls p ->
    gives RE st (OFromSource w (SText path) FacETree fa) (Some p).

(** No operation of [ops], from the state [st] on, succeeds that is about PDP [j]. *)
Fixpoint undisturbed (limit : nat) (RE : renv) (j : nat) (ops : list op) (st : program) : Prop :=
  match ops with
  | [] => True
  | o :: rest =>
      (about o st j -> exists e, fst (step limit RE o st) = Raise e) /\
      undisturbed limit RE j rest (snd (step limit RE o st))
  end.
