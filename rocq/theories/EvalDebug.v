(** Evaluation with debug logging switched on.  Only MatchBase.evaluate, match.py:327,
    looks at the level of the logger; the functions that lead to it are those of
    EvalState.v with the suffix [_d] instead of [_s], and model the same source lines. *)
From Verif Require Export EvalState.

(** What comparing a function's result with True raises, match.py:328: nothing for
    native values and for bags (list has no comparison with bool, so the result is
    False); AttributeValue.__eq__, attributevalue.py:154-161, insists on an
    AttributeValue; [O] is what the comparison of other objects does. *)
Definition compare_true (O : N -> option exn) (v : pyval) : option exn :=
  match v with
  | PNat _ => None
  | PBag _ _ => None
  | PAttr _ => Some ETypeError
  | POpaque n _ => O n
  end.

(** MatchBase.evaluate, match.py:280-347, with the logger's effective level at DEBUG
    or below: lines 327-341 compare each result with True as soon as it is there.
    (Formatting and output of the messages is up to the logging package, which
    reports its own errors and does not raise them.) *)
Definition match_fn_apply_d (S : senv) (O : N -> option exn) (m : matchel) (v : attrval)
  : ST pyval :=
  let! r := match_fn_apply_s S m v in
  match compare_true O r with
  | Some e => raise_s e
  | None => ret_s r
  end.
Definition eval_match_d (S : senv) (O : N -> option exn) (c : context) (m : matchel)
  : ST bool :=
  let! bag :=
    match mt_designator m with
    | Some d => eval_designator_s S d c
    | None =>
        match mt_selector m with
        | Some s => eval_selector_s S s c
        | None => raise_s EXacmlContextError
        end
    end in
  let! results := mapM_s (match_fn_apply_d S O m) (bag_items bag) in
  ret_s (existsb truthy results).

(** target.py:102-198 *)
Definition match_child_d (S : senv) (O : N -> option exn) (c : context) (child : list matchel) : ST bool :=
  let! results := mapM_s (eval_match_d S O c) child in
  ret_s (forallb (fun b => b) results).
Fixpoint section_loop_d (S : senv) (O : N -> option exn) (c : context) (status : bool)
  (children : list (list matchel)) : ST bool :=
  match children with
  | [] => ret_s status
  | ch :: rest =>
      let! b := match_child_d S O c ch in
      section_loop_d S O c (if b then true else status) rest
  end.
Definition match_section_d (S : senv) (O : N -> option exn) (c : context) (children : list (list matchel))
  : ST bool :=
  match children with
  | [] => ret_s true
  | _ => section_loop_d S O c false children
  end.
Definition target_match_d (S : senv) (O : N -> option exn) (c : context) (t : target) : ST bool :=
  let! results := mapM_s (match_section_d S O c)
    [tg_subjects t; tg_resources t; tg_actions t; tg_environments t] in
  ret_s (forallb (fun b => b) results).

(** rule.py:342-401 *)
Definition rule_body_d (S : senv) (O : N -> option exn) (c : context) (r : rule) : ST decision :=
  let! targetMatch := match rl_target r with
                      | Some t => target_match_d S O c t
                      | None => ret_s true
                      end in
  if negb targetMatch then ret_s NotApplicable
  else
    let! status := match rl_condition r with
                   | Some cond => eval_condition_s S c cond
                   | None => ret_s (py_bool true)
                   end in
    if truthy status then
      match rl_effect r with
      | Some e => ret_s (decision_of_effect e)
      | None => raise_s EAttributeError
      end
    else ret_s NotApplicable.

Definition rule_eval_d (S : senv) (O : N -> option exn) (c : context) (r : rule) : ST decision :=
  catch_exception_s (rule_body_d S O c r).

(** policybase.py:124-174 *)
Definition with_target_d (S : senv) (O : N -> option exn) (c : context) (t : option target)
  (combine : ST decision) : ST decision :=
  let! targetMatch := match t with
                      | Some t => target_match_d S O c t
                      | None => ret_s true
                      end in
  if negb targetMatch then ret_s NotApplicable else combine.

Fixpoint policy_eval_d (S : senv) (O : N -> option exn) (c : context) (p : policybase) : ST decision :=
  match p with
  | PPolicy _ t alg rules =>
      catch_exception_s
        (with_target_d S O c t
           (match alg with
            | None => raise_s EAttributeError
            | Some a => combine_rules_s a (rule_eval_d S O c) rules
            end))
  | PPolicySet _ t alg children =>
      catch_exception_s
        (with_target_d S O c t
           (match alg with
            | None => raise_s EAttributeError
            | Some a => combine_policies_s a (policy_eval_d S O c) children
            end))
  end.

