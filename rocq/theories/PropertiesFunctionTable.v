(** C102: what every built in function gives for every list of arguments. *)
From Verif Require Import SpecFunctionTable FunctionTableFacts Sample.
Local Open Scope list_scope.

(** A call gives what the table says, and nothing else. *)
Theorem C102_table : forall F f args r, fn_eval F f args = r <-> gives F f args r.
Proof.
  intros F f args r. split; [intros <-; apply fn_gives|apply given_eval].
Qed.

(** The exceptions. *)
Theorem C102_raises : forall F f args e, fn_eval F f args = Raise e -> may_raise F f e.
Proof. exact raised. Qed.

(** Rounding is to the nearest whole number, which is one. *)
Theorem C102_nearest : forall m e, exists z, nearest m e z /\ forall y, nearest m e y -> y = z.
Proof.
  intros m e. exists (round_half_even m e). split; [apply rounded|].
  intros y Hy. exact (nearest_unique m e _ _ Hy (rounded m e)).
Qed.

(** The functions on truth values and numbers take those of Python, never attribute
    values or bags: a boolean or integer attribute must not be given to them directly. *)
Theorem C102_attribute_values_refused : forall F f before x after r,
  (f = FnAnd \/ (f = FnNot \/ f = FnRound) /\ before = [] /\ after = []) ->
  (exists a, x = PAttr a) \/ (exists et l, x = PBag et l) ->
  fn_eval F f (before ++ x :: after) = r -> r = Raise EXacmlContextTypeError.
Proof.
  intros F f before x after r Hf Hx <-.
  assert (Hb : ~ a_boolean x) by (intros (b & ->); destruct Hx as [(a & E)|(et & l & E)]; discriminate E).
  destruct Hf as [->|[[->| ->] [-> ->]]]; apply given_eval.
  - apply (and_type F _ x); [apply in_or_app; right; left; reflexivity|exact Hb].
  - apply not_type, Hb.
  - apply round_type. intros [(z & ->)|[(b & ->)|(f & ->)]]; destruct Hx as [(a & E)|(et & l & E)]; discriminate E.
Qed.

Example C102_case :
  gives sF FnRound [PNat (NFloat (FNum 5 (-1)))] (Ok (PNat (NInt 2))) /\
  gives sF FnRound [PNat (NFloat (FNum (-7) (-1)))] (Ok (PNat (NInt (-4)))) /\
  gives sF FnRound [PAttr (mkAV DoubleAV (xs "double") (NFloat (FNum 5 (-1))))] (Raise EXacmlContextTypeError) /\
  gives sF FnNot [PAttr (mkAV BooleanAV (xs "boolean") (NBool true))] (Raise EXacmlContextTypeError) /\
  gives sF (FnMatch StringAV) [PAttr (sstr "x"); PAttr (mkAV (mkClass "Mine" ["StringAttributeValue"] "urn:m" NTStr) "urn:m" (NStr "x"))]
    (Raise ETypeError) /\
  gives sF (FnConcat AnyURIAV) [PAttr (mkAV AnyURIAV (xs "anyURI") (NStr "u:")); PAttr (sstr "a"); PAttr (sstr "b")]
    (Ok (PAttr (mkAV AnyURIAV (xs "anyURI") (NStr "u:ab")))) /\
  gives sF (FnAtLeastOne StringAV) [PBag (Some StringAV) [sstr "a"; sstr "b"]; PAttr (sstr "b")]
    (Raise EXacmlContextTypeError).
Proof. repeat split; apply C102_table; vm_compute; reflexivity. Qed.

Print Assumptions C102_table.
Print Assumptions C102_raises.
Print Assumptions C102_nearest.
Print Assumptions C102_attribute_values_refused.
