(** A decision point used with documents: policy read from a source, request
    documents in, response documents out. *)
From Verif Require Export Eval Readers ContextXml Response.

(** PDP.fromPolicySource and setPolicyFromSource, core/context/pdp.py:40-73: a new
    finder unless one is given (finder/defaultfinder.py); the policy is read and
    assigned. *)
Definition pdp_from_source (limit : nat) (RE : renv) (fetch : string -> res node) (fd : finder)
  (source : node) : res (option policybase) :=
  let* (p, _) := read_doc limit RE fetch fd source fstate0 in
  pdp_new (Some (APolicy p)).

(** Assignment of request.ctxHandler and request.attributeSelector,
    core/context/request.py:126-171 *)
Definition attach (handler selector : option N) (r : request) : request :=
  mkRequest (rq_subjects r) (rq_resources r) (rq_action r) (rq_environment r) handler selector.

(** What a context handler does with a request document: RequestElementTree.fromXML
    (parsers/etree/context.py:76-120), PDP.evaluate (pdp.py:92-103) and
    ResponseElementTree.toXML (context.py:438-461).  The composition is the
    application's; core/context/handler.py:15-55 only holds the PDP for it. *)
Definition serve (lxml : bool) (EE : env) (s : store) (cm : list (string * avclass))
  (handler selector : option N) (pdp : option policybase) (requestDoc : node) : res node :=
  let* r := request_of_xml cm requestDoc in
  let* a := pdp_evaluate EE s (CtxRequest (attach handler selector r)) pdp in
  response_xml lxml s a.
