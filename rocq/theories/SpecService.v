(** What a decision point that works on documents should answer. *)
From Verif Require Import Service SpecEval SpecRead SpecContext.

(** A response document with one result saying [d]. *)
Definition answer_doc (n : node) (d : decision) : Prop :=
  called "Response" n = true /\
  exists k, elems n = [k] /\ called "Result" k = true /\
  exists k', elems k = [k'] /\ decision_doc k' d.

(** Everything that happens when a policy document is loaded and a request document
    is answered. *)
Definition answers (lxml : bool) (limit : nat) (RE : renv) (fetch : string -> res node) (fd : finder)
  (EE : env) (cm : list (string * avclass)) (handler selector : option N)
  (policyDoc requestDoc : node) : res node :=
  let* pdp := pdp_from_source limit RE fetch fd policyDoc in
  serve lxml EE store0 cm handler selector pdp requestDoc.

(** The request that a document contains, with handler and selector. *)
Definition context_doc (cm : list (string * avclass)) (handler selector : option N)
  (n : node) (c : context) : Prop :=
  exists r, request_doc cm n r /\
    c = CtxRequest (mkRequest (rq_subjects r) (rq_resources r) (rq_action r) (rq_environment r)
                      handler selector).
