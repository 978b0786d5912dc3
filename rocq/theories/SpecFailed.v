(** Finders after documents that could not be read. *)
From Verif Require Export Readers SpecText SpecRead SpecReadObjects SpecInterrupts.

Section Reached.
Variable fetch : string -> res node.
Variable fd : finder.

(** [m] is the document [d], a policy or policy set included in it at any depth, or
    one of a document that a reference in these leads to. *)
Inductive reached (d : node) : node -> Prop :=
| reached_root : reached d d
| reached_member : forall n k, reached d n -> called "PolicySet" n = true -> In k (members n) -> reached d k
| reached_reference : forall base k r url m, reached d k -> wanted k <> None -> fd = UrlFinder base ->
    xml_text k = Some r -> make_url base r = Ok url -> fetch url = Ok m -> reached d m.
End Reached.

(** [p] is the meaning of a whole policy or policy set that is in [d] or in a
    document that [d] leads to. *)
Definition part_of_document (E : renv) (fetch : string -> res node) (fd : finder) (d : node)
  (p : policybase) : Prop :=
  exists m K1 K2 urls, reached fetch fd d m /\ reads E fetch fd m K1 K2 urls p.

(** What becomes of a finder [fd] in a program that reads documents with it, one
    after the other, whatever becomes of each, and makes other objects meanwhile, but
    changes no policy; the web may change between the documents. *)
Inductive session (E : renv) (fd : finder) (s0 : lstate) :
  list ((string -> res node) * node) -> lstate -> Prop :=
| session_start : session E fd s0 [] s0
| session_read : forall docs s fetch limit d, session E fd s0 docs s ->
    session E fd s0 (docs ++ [(fetch, d)])%list (snd (doc_l E fetch fd limit d s))
| session_other : forall docs s s', session E fd s0 docs s ->
    untouched (ls_heap s) (ls_heap s') -> same_map E s' ->
    ls_policies s' = ls_policies s -> ls_sets s' = ls_sets s -> ls_fetched s' = ls_fetched s ->
    session E fd s0 docs s'.
