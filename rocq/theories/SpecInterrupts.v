(** Notions used in the statements about loads that are stopped. *)
From Verif Require Import Interrupts SpecRead SpecSources SpecFinderThreads.
Open Scope string_scope.

(** How far reading may have come: [gets_to n K K1] says that while the document [n] is
    read, by a finder that held [K] before, there is a moment at which it holds [K1]:
    - nothing has been added yet;
    - or all of [n] has been read;
    - or [n] is a policy set, its first members have been read and the next one is
      being read; if that is a reference to something not held, its document is. *)
Section Moments.
Variable E : renv.
Variable fetch : string -> res node.
Variable fd : finder.

Inductive gets_to : node -> list policybase -> list policybase -> Prop :=
| gets_start : forall n K, gets_to n K K
| gets_done : forall n K K1 urls p, reads E fetch fd n K K1 urls p -> gets_to n K K1
| gets_member : forall n K before k after K0 urls ps K1,
    called "PolicySet" n = true -> members n = (before ++ k :: after)%list ->
    reads_members E fetch fd before K K0 urls ps -> member_gets_to k K0 K1 ->
    gets_to n K K1
with member_gets_to : node -> list policybase -> list policybase -> Prop :=
| gets_inline : forall k K K1, wanted k = None -> gets_to k K K1 -> member_gets_to k K K1
| gets_fetched : forall base k r url d x K K1,
    fd = UrlFinder base -> xml_text k = Some r -> wanted k = Some x ->
    ~ In x (map name_of K) -> make_url base r = Ok url -> fetch url = Ok d ->
    gets_to d K K1 -> member_gets_to k K K1.
End Moments.

(** Every reference in the document, and in those it leads to, names the policy or policy
    set that the document at its URL has as its root. *)
Definition well_placed (fetch : string -> res node) (fd : finder) (n : node) : Prop :=
  forall base d m x r url d', reaches fetch fd n d -> inside m d -> wanted m = Some x ->
    fd = UrlFinder base -> xml_text m = Some r -> make_url base r = Ok url -> fetch url = Ok d' ->
    root_name d' = x.

(** [m] is the document or a policy or policy set written in it, not referred to. *)
Inductive written_in (m : node) : node -> Prop :=
| written_self : written_in m m
| written_member : forall n k, In k (members n) -> wanted k = None -> written_in m k -> written_in m n.

(** The document [d] at a URL may fail to be fetched, but is never another one. *)
Definition at_times (fetch' fetch : string -> res node) : Prop :=
  forall u d, fetch' u = Ok d -> fetch u = Ok d.

(** The operation of an entry of a history. *)
Definition op_of (x : iop) : op := match x with IDo o => o | IStopped _ _ o => o end.
