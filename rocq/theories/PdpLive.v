(** PDP objects whose evaluate is called by any number of threads while others build and
    change objects, assign policies and read documents (context/pdp.py,
    core/policybase.py).

    A call of PDP.evaluate makes its steps one look at a time (EvalLive.v).
    Simplifications: the operations of the other threads are one step each, and so is
    reading a document; the Response and Result objects that a call makes are its own
    (Response.v, ResponseObjects.v) and not among the objects of the heap; the shared
    Decision objects have their first values. *)
From Verif Require Export EvalLive ReadObjects Response.

Section PdpLive.
Variable O : oenv.
(** The number of nested calls that the recursion limit allows *)
Variable n : nat.

(** PolicyBase.evaluateResponse, policybase.py:99-122, called on [p], which is None if the
    PDP has no policy: then there is no such method.  In the except branch the response
    keeps the initial result (line 120 only rebinds a local name). *)
Definition l_response (c p : pval) : LT response :=
  match p with
  | PRef _ =>
      match result_create (as_arg store0 (DShared NotApplicable)) no_args with
      | Raise e => raise e
      | Ok r =>
          LBind (l_policy_eval O n c p) (fun d =>
            match d with
            | Ok d => ret [set_decision r (DShared d)]
            | Raise e => if is_context_error e then ret [r] else raise e
            end)
      end
  | _ => raise EAttributeError
  end.

(** PDP.evaluate, pdp.py:92-103; the property policy, pdp.py:74-81, is read once *)
Definition l_pdp_evaluate (pdp c : pval) : LT response :=
  let+ p := l_attr pdp "policy" in
  l_response c p.

(** The same with no other thread, policybase.py:99-122 and pdp.py:92-103 *)
Definition o_response (h : heap) (c p : pval) : res response :=
  match p with
  | PRef _ =>
      match result_create (as_arg store0 (DShared NotApplicable)) no_args with
      | Raise e => Raise e
      | Ok r =>
          match o_policy_eval O h n c p with
          | Ok d => Ok [set_decision r (DShared d)]
          | Raise e => if is_context_error e then Ok [r] else Raise e
          end
      end
  | _ => Raise EAttributeError
  end.
Definition o_pdp_evaluate (h : heap) (pdp c : pval) : res response :=
  let* p := attr h pdp "policy" in
  o_response h c p.

(** ** A process *)

(** The objects, the shared function map and a finder, and the calls of PDP.evaluate made
    so far, in their order *)
Record service : Type := mkService {
  sv_state : lstate;
  sv_calls : list (LT response)
}.

(** What happens: a thread calls pdp.evaluate(c); call number [k] makes a step; a thread
    performs an operation (Objects.v), reads a document (ReadObjects.v), calls the
    functions of the function map, makes a new finder. *)
Inductive happening : Type :=
| HCall (pdp c : pval)
| HStep (k : nat)
| HDo (o : oop)
| HRead (E : renv) (fetch : string -> res node) (fd : finder) (limit : nat) (d : node)
| HFunctions (ops : list fop)
| HFinder.

Variable cm : list (string * avclass).

Definition happens (s : service) (ev : happening) : service :=
  let st := sv_state s in
  match ev with
  | HCall pdp c => mkService st (sv_calls s ++ [l_pdp_evaluate pdp c])
  | HStep k =>
      match nth_error (sv_calls s) k with
      | Some t => mkService st (replace_nth k (lstep O (ls_heap st) t) (sv_calls s))
      | None => s
      end
  | HDo o => mkService (with_os st (snd (ostep cm (ls_os st) o))) (sv_calls s)
  | HRead E fetch fd limit d => mkService (snd (doc_l E fetch fd limit d st)) (sv_calls s)
  | HFunctions ops =>
      mkService (with_os st (mkOState (ls_heap st) (fm_run cm ops (os_map (ls_os st))))) (sv_calls s)
  | HFinder => mkService (mkLState (ls_os st) [] [] []) (sv_calls s)
  end.

Definition after (evs : list happening) : service :=
  fold_left happens evs (mkService lstart []).
End PdpLive.
