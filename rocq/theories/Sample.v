(** Concrete environment, requests, rules and policies used by the examples that
    accompany the theorems. *)
From Verif Require Import Eval.

(** Regular expressions: every pattern but "[" compiles and a pattern matches
    the strings that start with it.  Custom function "exit" raises SystemExit,
    "fail" raises an Exception, any other returns True. *)
Definition sF : fenv :=
  mkFenv (fun p => if String.eqb p "[" then Some (EOther 1) else None)
         (fun p s => String.prefix p s)
         (fun n _ => if String.eqb n "exit" then Raise (EBase 1)
                     else if String.eqb n "fail" then Raise (EOther 2)
                     else Ok (py_bool true)).

Definition sstr (s : string) : attrval := mkAV StringAV (xs "string") (NStr s).
Definition sint (z : Z) : attrval := mkAV IntegerAV (xs "integer") (NInt z).

(** An attribute source that knows one more role. *)
Definition spip (r : request) (d : designator) : res (option (list pyval)) :=
  match dg_id d with
  | Some "role" => Ok (Some [PAttr (sstr "staff"); PAttr (sstr "admin")])
  | Some "down" => Raise (EOther 3)
  | Some "exit" => Raise (EBase 2)
  | _ => Ok None
  end.

Definition sE : env := mkEnv sF STD_CLASS_MAP spip (fun _ _ => Ok [NStr "a"; NStr "b"]).

Definition sattr (id : string) (vs : list attrval) : attribute :=
  mkAttribute (Some id) (Some (xs "string")) None vs.

(** Two subjects, one resource, an action and an (empty) environment. *)
Definition sreq : request :=
  mkRequest
    [mkSubject None [sattr "role" [sstr "staff"; sstr "guest"]; sattr "name" [sstr "eve"]];
     mkSubject None [sattr "role" [sstr "operator"]]]
    [mkResource None [sattr "url" [sstr "http://localhost/data"]]]
    (Some [sattr "action" [sstr "read"]]) (Some []) None None.
Definition sreq_pip : request :=
  mkRequest (rq_subjects sreq) (rq_resources sreq) (rq_action sreq) (rq_environment sreq)
    (Some 1%N) (Some 1%N).
Definition sctx : context := CtxRequest sreq.

Definition sdes (k : designator_kind) (id : string) (must : bool) : designator :=
  mkDesignator k (Some id) (Some (xs "string")) None must.

Definition smatch (f : fn) (v : string) (d : designator) : matchel :=
  mkMatch None (Some f) (Some (sstr v)) (Some d) None.
Definition m_staff : matchel := smatch (FnEqual StringAV) "staff" (sdes DSubject "role" false).
Definition m_admin : matchel := smatch (FnEqual StringAV) "admin" (sdes DSubject "role" false).
Definition m_local : matchel :=
  smatch (FnRegexp StringAV) "http://localhost" (sdes DResource "url" true).
Definition m_read : matchel := smatch (FnEqual StringAV) "read" (sdes DAction "action" false).
(** raises: the attribute must be present but is not *)
Definition m_missing : matchel := smatch (FnEqual StringAV) "x" (sdes DAction "none" true).
(** raises: the pattern does not compile *)
Definition m_badre : matchel := smatch (FnRegexp StringAV) "[" (sdes DResource "url" true).
(** raises SystemExit *)
Definition m_exit : matchel := smatch (FnCustom "exit") "x" (sdes DAction "action" true).

Definition stgt (ss rs acs : list (list matchel)) : target := mkTarget ss rs acs [].
Definition t_staff : target := stgt [[m_staff]; [m_admin]] [[m_local]] [[m_read]].
Definition t_admin : target := stgt [[m_admin]] [] [].
Definition t_error : target := stgt [[m_staff]] [[m_badre]] [[m_missing]].

(** one-and-only(action) = "read" *)
Definition x_read : expr :=
  XApply None (Some (FnEqual StringAV))
    [XApply None (Some (FnOneAndOnly StringAV)) [XDesignator (sdes DAction "action" true)];
     XValue (sstr "read")].
Definition x_false : expr := XApply None (Some FnNot) [x_read].

Definition srule (e : effect) (t : option target) (c : option expr) : rule :=
  mkRule (Some "r") (Some e) t (option_map Some c) None.
Definition r_permit : rule := srule EffPermit (Some t_staff) (Some x_read).
Definition r_deny : rule := srule EffDeny (Some t_staff) (Some x_read).
Definition r_na : rule := srule EffDeny (Some t_admin) None.
Definition r_na2 : rule := srule EffDeny (Some t_staff) (Some x_false).
Definition r_perr : rule := srule EffPermit (Some t_error) None.
Definition r_derr : rule := srule EffDeny (Some t_error) None.
Definition r_noeff : rule := mkRule (Some "r") None None None None.
Definition r_exit : rule := srule EffPermit (Some (stgt [] [] [[m_exit]])) None.

Definition smeta : pmeta := mkMeta (Some "p") (Some "1.0") None None None.
Definition spol (t : option target) (a : comb_alg) (rs : list rule) : policybase :=
  PPolicy smeta t (Some a) rs.
Definition sset (t : option target) (a : comb_alg) (ps : list policybase) : policybase :=
  PPolicySet smeta t (Some a) ps.
