(** Loads that do not come to their end: an exception from outside (KeyboardInterrupt,
    MemoryError, RecursionError, a signal handler or a time limit of the caller) arrives
    while a document is read.  No function on the way handles exceptions
    (policybase.py:45-79, pdp.py:40-72, parsers/etree/policysetreader.py:46-151,
    finder/urlpolicyfinder.py:43-103), so it passes through to the caller and what was done
    to the finder remains.

    The load is the program of FinderThreads.v, whose steps are the operations on the
    finder and the fetching of documents; it is stopped between two of them. *)
From Verif Require Export FinderThreads Sources.

(** The program after [k] steps, and the finder then. *)
Fixpoint steps_f {A} (web : list string -> string -> res node) (k : nat) (x : FT A) (s : fstate)
  : FT A * fstate :=
  match k with
  | O => (x, s)
  | S k' => let '(x', s') := step_f web x s in steps_f web k' x' s'
  end.

(** PolicyBase.fromSource with a finder (policybase.py:45-79), when the exception [e]
    arrives after [k] steps, unless the load has come to its end before. *)
Definition stopped_load (limit : nat) (E : renv) (fetch : string -> res node) (fd : finder)
  (k : nat) (e : exn) (n : node) (s : fstate) : res policybase * fstate :=
  match steps_f (fun _ => fetch) k (read_doc_t limit E fd n) s with
  | (FDone r, s') => (r, s')
  | (_, s') => (Raise e, s')
  end.

(** Several attempts to load one document with one finder, each with its own limit,
    its own web, the step it is stopped at and the exception. *)
Record attempt : Type := mkAttempt {
  at_limit : nat;
  at_fetch : string -> res node;
  at_steps : nat;
  at_exn : exn
}.
Fixpoint attempts (E : renv) (fd : finder) (n : node) (l : list attempt) (s : fstate) : fstate :=
  match l with
  | [] => s
  | a :: l' =>
      attempts E fd n l'
        (snd (stopped_load (at_limit a) E (at_fetch a) fd (at_steps a) (at_exn a) n s))
  end.

Section Process.
Variable limit : nat.
Variable RE : renv.

(** PolicyBase.fromSource, policybase.py:45-79, stopped after [k] steps of the reading;
    see Sources.base_from_source *)
Definition base_stopped (k : nat) (e : exn) (w : Sources.world) (s : source) (f : factory_arg)
  (fa : finder_arg) (st : program) : res policybase * program :=
  match get_reader f with
  | Raise e' => (Raise e', st)
  | Ok _ =>
      match fa with
      | FaNone | FaOther _ => (Raise ETypeError, st)
      | FaFinder i =>
          match nth_error (ap_finders st) i with
          | None => (Raise ENameError, st)
          | Some (fd, fst0) =>
              match parse_source w s with
              | Raise e' => (Raise e', st)
              | Ok n =>
                  let (r, fst1) := stopped_load limit RE (w_fetch w) fd k e n fst0 in
                  (r, mkProgram (list_set i (fd, fst1) (ap_finders st)) (ap_pdps st))
              end
          end
      end
  end.

(** PDP.setPolicyFromSource and PDP.fromPolicySource, pdp.py:40-72, stopped while the
    document is read; the other operations read none.  See Sources.step. *)
Definition step_stopped (k : nat) (e : exn) (o : op) (st : program) : res unit * program :=
  match o with
  | OFromSource w s f fa =>
      let load (fa : finder_arg) (st : program) : res unit * program :=
        let (r, st1) := base_stopped k e w s f fa st in
        match r with
        | Raise e' => (Raise e', st1)
        | Ok p => (Ok tt, new_pdp (Some p) st1)
        end in
      match fa with
      | FaNone | FaOther false =>
          match default_finder w s with
          | Raise e' => (Raise e', st)
          | Ok fd =>
              let (r, st1) := load (FaFinder (length (ap_finders st)))
                                (mkProgram (ap_finders st ++ [(fd, fstate0)]) (ap_pdps st)) in
              (r, mkProgram (ap_finders st) (ap_pdps st1))
          end
      | _ => load fa st
      end
  | OSetFromSource i w s f fa =>
      match nth_error (ap_pdps st) i with
      | None => (Raise ENameError, st)
      | Some _ =>
          let (r, st1) := base_stopped k e w s f fa st in
          match r with
          | Raise e' => (Raise e', st1)
          | Ok p => (Ok tt, put i (Some p) st1)
          end
      end
  | _ => step limit RE o st
  end.

(** A history: operations, some of which are stopped. *)
Inductive iop : Type := IDo (o : op) | IStopped (k : nat) (e : exn) (o : op).
Definition step_i (x : iop) (st : program) : res unit * program :=
  match x with
  | IDo o => step limit RE o st
  | IStopped k e o => step_stopped k e o st
  end.
Fixpoint run_i (xs : list iop) (st : program) : program :=
  match xs with
  | [] => st
  | x :: rest => run_i rest (snd (step_i x st))
  end.
End Process.
