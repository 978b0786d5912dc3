(** Other ways of writing a policy. *)
From Verif Require Export SpecEval SpecStandard.

(** The four sections of a target. *)
Inductive part := Subjects | Resources | Actions | Environments.
Definition part_of (k : part) (t : target) : list (list matchel) :=
  match k with
  | Subjects => tg_subjects t
  | Resources => tg_resources t
  | Actions => tg_actions t
  | Environments => tg_environments t
  end.
Definition with_part (k : part) (s : list (list matchel)) (t : target) : target :=
  match k with
  | Subjects => mkTarget s (tg_resources t) (tg_actions t) (tg_environments t)
  | Resources => mkTarget (tg_subjects t) s (tg_actions t) (tg_environments t)
  | Actions => mkTarget (tg_subjects t) (tg_resources t) s (tg_environments t)
  | Environments => mkTarget (tg_subjects t) (tg_resources t) (tg_actions t) s
  end.

(** A rule with another target, or another condition. *)
Definition retarget (t : option target) (r : rule) : rule :=
  mkRule (rl_id r) (rl_effect r) t (rl_condition r) (rl_description r).
Definition recondition (x : option (option expr)) (r : rule) : rule :=
  mkRule (rl_id r) (rl_effect r) (rl_target r) x (rl_description r).

(** The target that asks for what both ask for: where both have alternatives,
    every alternative of the one with every one of the other. *)
Definition both_sections (s1 s2 : list (list matchel)) : list (list matchel) :=
  match s1, s2 with
  | [], _ => s2
  | _, [] => s1
  | _, _ => flat_map (fun a => map (fun b => a ++ b) s2) s1
  end.
Definition both_targets (t1 t2 : target) : target :=
  mkTarget (both_sections (tg_subjects t1) (tg_subjects t2))
    (both_sections (tg_resources t1) (tg_resources t2))
    (both_sections (tg_actions t1) (tg_actions t2))
    (both_sections (tg_environments t1) (tg_environments t2)).
(** Rule [r] for the requests of target [t] only. *)
Definition also_for (t : target) (r : rule) : rule :=
  retarget (Some (match rl_target r with Some t' => both_targets t t' | None => t end)) r.

(** Expressions for and, not and or. *)
Definition x_not (x : expr) : expr := XApply None (Some FnNot) [x].
Definition x_and (xs : list expr) : expr := XApply None (Some FnAnd) xs.
Definition x_or (xs : list expr) : expr := x_not (x_and (map x_not xs)).

(** The attribute of designator [d] has value [v], as a match and as an
    expression. *)
Definition equal_match (k : avclass) (v : attrval) (d : designator) : matchel :=
  mkMatch None (Some (FnEqual k)) (Some v) (Some d) None.
Definition equal_expr (k : avclass) (v : attrval) (d : designator) : expr :=
  XApply None (Some (FnAtLeastOne k))
    [XApply None (Some (FnBag k)) [XValue v]; XDesignator d].
