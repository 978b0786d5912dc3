(** Notions used in the statements about finders shared by threads. *)
From Verif Require Import FinderThreads SpecRead.
Open Scope string_scope.

(** The process: a finder holding the policies [K], and one thread for each list of
    documents, loading them one after the other with the finder. *)
Definition start_f (limit : nat) (E : renv) (fd : finder) (K : list policybase)
  (threads : list (list node)) : list (FT (list (res policybase))) * fstate :=
  (map (loads_t limit E fd) threads, mkFstate (holding K) []).

Section Process.
Variable limit : nat.
Variable E : renv.
Variable fd : finder.
Variable web : list string -> string -> res node.
Variable K : list policybase.
Variable threads : list (list node).

(** After the schedule thread [i] has finished, with these outcomes of its loads. *)
Definition finished_f (sched : list nat) (i : nat) (rs : list (res policybase)) : Prop :=
  nth_error (fst (run_schedule_f web sched (start_f limit E fd K threads))) i = Some (FDone (Ok rs)).

(** Document number [j] of thread [i] is [d], and loading it had outcome [r]. *)
Definition outcome_f (sched : list nat) (i j : nat) (d : node) (r : res policybase) : Prop :=
  exists docs rs, nth_error threads i = Some docs /\ nth_error docs j = Some d /\
    finished_f sched i rs /\ nth_error rs j = Some r.

(** What the finder holds under the name after the schedule, wherever the threads are. *)
Definition held_f (sched : list nat) (x : name) : option policybase :=
  let g := fs_reg (snd (run_schedule_f web sched (start_f limit E fd K threads))) in
  match x with
  | PolicyName k => key_get k (rg_policies g)
  | SetName k => key_get k (rg_sets g)
  end.

(** The documents there are: those the threads load and those the web gives. *)
Definition available (d : node) : Prop :=
  (exists docs, In docs threads /\ In d docs) \/ (exists before u, web before u = Ok d).
End Process.

(** A policy that a document says: the meaning of some element in one of the documents,
    where references stand for policies that the finder held before or that documents
    say. *)
Inductive said (E : renv) (docs : node -> Prop) (K : list policybase) : policybase -> Prop :=
| said_before : forall q, In q K -> said E docs K q
| said_in : forall d m q, docs d -> inside m d -> wanted m = None ->
    doc_means E (said E docs K) m q -> said E docs K q.

(** The element [m] declares or refers to the name. *)
Definition declared (m : node) (x : name) : Prop :=
  called "Policy" m = true /\ x = PolicyName (xml_attr "PolicyId" m) \/
  called "PolicySet" m = true /\ x = SetName (xml_attr "PolicySetId" m).

(** The document [d] is [n], or one that is found following references from [n]. *)
Inductive reaches (fetch : string -> res node) (fd : finder) (n : node) : node -> Prop :=
| reach_self : reaches fetch fd n n
| reach_ref : forall base d m r url d', reaches fetch fd n d -> inside m d -> wanted m <> None ->
    fd = UrlFinder base -> xml_text m = Some r -> make_url base r = Ok url -> fetch url = Ok d' ->
    reaches fetch fd n d'.

(** Loading [n] may register the name; loading [n] may register it or look it up. *)
Definition declares (fetch : string -> res node) (fd : finder) (n : node) (x : name) : Prop :=
  exists d m, reaches fetch fd n d /\ inside m d /\ declared m x.
Definition mentions (fetch : string -> res node) (fd : finder) (n : node) (x : name) : Prop :=
  exists d m, reaches fetch fd n d /\ inside m d /\ (declared m x \/ wanted m = Some x).

(** The outcomes of the loads one after the other, in one thread (Sources.v). *)
Fixpoint loads_alone (limit : nat) (E : renv) (fetch : string -> res node) (fd : finder)
  (docs : list node) (s : fstate) : list (res policybase) :=
  match docs with
  | [] => []
  | d :: rest =>
      let (r, s') := read_doc_s limit E fetch fd d s in
      r :: loads_alone limit E fetch fd rest s'
  end.
