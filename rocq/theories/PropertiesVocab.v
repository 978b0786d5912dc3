(** C90: effects and decisions as objects. *)
From Coq Require Import Lia.
From Verif Require Import Vocab SpecVocab VocabFacts.
Local Open Scope string_scope.
Local Open Scope list_scope.

(** After every history every effect and every decision has one of the words of its own
    class, whatever classes have been derived. *)
Theorem C90_vocabulary : forall ops i c v,
  nth_error (vrun ops []) i = Some (c, v) -> In v (vc_types c).
Proof. intros ops. exact (vrun_words ops [] in_words_nil). Qed.

(** The words of the classes of the library, and what new objects of the classes with a
    fixed word say. *)
Theorem C90_words : forall s,
  (forall c, In c [rule_effect; permit_effect; deny_effect; obligation_effect] ->
     (In s (vc_types c) <-> s = "Permit" \/ s = "Deny")) /\
  (forall c, In c [decision_class; permit_decision; deny_decision; indeterminate_decision;
                   not_applicable_decision] ->
     (In s (vc_types c) <-> s = "Permit" \/ s = "Deny" \/ s = "Indeterminate" \/ s = "NotApplicable")) /\
  map vc_fixed [permit_effect; deny_effect; permit_decision; deny_decision; indeterminate_decision;
                not_applicable_decision] =
  map Some ["Permit"; "Deny"; "Permit"; "Deny"; "Indeterminate"; "NotApplicable"].
Proof.
  intro s. split; [|split; [|reflexivity]]; intros c H; cbn in H;
    repeat (destruct H as [<-|H]; [cbn; intuition congruence|]); destruct H.
Qed.

(** Assignment: a word of the class, as a string or as an object of the family, is taken,
    and no other object changes; another string is refused with AttributeError, anything
    else with TypeError, and nothing changes. *)
Theorem C90_assignment : forall objs i c v x,
  nth_error objs i = Some (c, v) ->
  (forall s, stands_for objs (vc_family c) x s -> In s (vc_types c) ->
     exists objs', vstep objs (VSet i x) = Some (Ok VDone, objs') /\ differ_at i s objs objs') /\
  (forall s, stands_for objs (vc_family c) x s -> ~ In s (vc_types c) ->
     vstep objs (VSet i x) = Some (Raise EAttributeError, objs)) /\
  ((forall s, ~ stands_for objs (vc_family c) x s) ->
     vstep objs (VSet i x) = Some (Raise ETypeError, objs)).
Proof.
  intros objs i c v x E. cbn. unfold on_object. rewrite E.
  destruct (checked_cases c objs x) as [(s & [T I] & K)|[(s & T & N & K)|(N & K)]]; rewrite K;
    (split; [|split]).
  - intros t Ht _. rewrite (stands_for_fun _ _ _ _ _ Ht T). exists (put i s objs).
    split; [reflexivity|apply put_spec].
  - intros t Ht Nt. rewrite (stands_for_fun _ _ _ _ _ Ht T) in Nt. tauto.
  - intro H. destruct (H _ T).
  - intros t Ht It. rewrite (stands_for_fun _ _ _ _ _ Ht T) in It. tauto.
  - reflexivity.
  - intro H. destruct (H _ T).
  - intros t Ht. destruct (N _ Ht).
  - intros t Ht. destruct (N _ Ht).
  - reflexivity.
Qed.

(** Nothing else changes an object: comparing, looking in lists, testing, printing and
    hashing change nothing, making and copying add one object and keep the others. *)
Theorem C90_only_assignment_changes : forall objs o r objs',
  vstep objs o = Some (r, objs') ->
  (forall i x, o <> VSet i x) ->
  (objs' = objs /\ forall k, r <> Ok (VObject k)) \/
  (exists c s, objs' = (objs ++ [(c, s)])%list /\ r = Ok (VObject (length objs)) /\
     ((exists x, o = VNew c x) \/ (exists i, o = VCopy i))).
Proof.
  intros objs o r objs' H N.
  destruct (vstep_frame _ _ _ _ H) as [(i & x & c & w & s & -> & _)|[D|(c & s & P & R & [(x & -> & _)|(i & -> & _)])]].
  - destruct (N i x eq_refl).
  - left. exact D.
  - right. exists c, s. eauto.
  - right. exists c, s. eauto.
Qed.

(** Over every history an object keeps its class, and its value is the one of the last
    assignment that was taken, or the first one if there was none. *)
Theorem C90_value_assigned_last : forall ops objs i c v,
  nth_error objs i = Some (c, v) ->
  exists w, nth_error (vrun ops objs) i = Some (c, w) /\
  ((w = v /\ forall before x after s, ops = (before ++ VSet i x :: after)%list ->
      ~ taken (vrun before objs) c x s) \/
   (exists before x after, ops = (before ++ VSet i x :: after)%list /\
      taken (vrun before objs) c x w /\
      forall between y rest s, after = (between ++ VSet i y :: rest)%list ->
        ~ taken (vrun (before ++ VSet i x :: between) objs) c y s)).
Proof. exact vrun_value. Qed.

(** New objects: of a rule's effect Deny is the default, of a decision Indeterminate; the
    effect of an obligation has none; a class with a fixed word takes no argument. *)
Theorem C90_new : forall objs c x,
  let made s := vstep objs (VNew c x) = Some (Ok (VObject (length objs)), (objs ++ [(c, s)])%list) in
  let refused e := vstep objs (VNew c x) = Some (Raise e, objs) in
  (forall word, vc_fixed c = Some word -> In word (vc_types c) -> x = None -> made word) /\
  (forall word y, vc_fixed c = Some word -> x = Some y -> refused ETypeError) /\
  (forall y s, vc_fixed c = None -> x = Some y -> taken objs c y s -> made s) /\
  (forall y s, vc_fixed c = None -> x = Some y ->
     stands_for objs (vc_family c) y s -> ~ In s (vc_types c) -> refused EAttributeError) /\
  (forall y, vc_fixed c = None -> x = Some y ->
     (forall s, ~ stands_for objs (vc_family c) y s) -> refused ETypeError) /\
  (vc_fixed c = None -> x = None -> vc_family c = RuleEffect -> In "Deny"%string (vc_types c) -> made "Deny"%string) /\
  (vc_fixed c = None -> x = None -> vc_family c = DecisionFamily -> In "Indeterminate"%string (vc_types c) ->
     made "Indeterminate"%string) /\
  (vc_fixed c = None -> x = None -> vc_family c = ObligationEffect -> refused ETypeError).
Proof.
  intros objs c x made refused. subst made refused. cbn [vstep]. unfold initial.
  assert (K : forall s, In s (vc_types c) -> checked c objs (VNative (NStr s)) = Ok s).
  { intros s I. apply checked_ok. split; [constructor|exact I]. }
  split; [intros word -> I ->; rewrite (K _ I); reflexivity|].
  split; [intros word y -> ->; reflexivity|].
  split; [intros y s -> -> T; apply checked_ok in T; rewrite T; reflexivity|].
  split.
  { intros y s -> -> S N. destruct (checked_cases c objs y) as [(t & [T I] & Q)|[(t & T & M & Q)|(M & Q)]]; rewrite Q.
    - rewrite (stands_for_fun _ _ _ _ _ T S) in I. tauto.
    - reflexivity.
    - destruct (M _ S). }
  split.
  { intros y -> -> N. destruct (checked_cases c objs y) as [(t & [T I] & Q)|[(t & T & M & Q)|(M & Q)]]; rewrite Q;
      [destruct (N _ T)|destruct (N _ T)|reflexivity]. }
  split; [intros -> -> -> I; rewrite (K _ I); reflexivity|].
  split; [intros -> -> -> I; rewrite (K _ I); reflexivity|].
  intros -> -> ->. reflexivity.
Qed.

(** Comparison of two objects of classes with the same words, whichever stands left: equal
    exactly if the values are; [!=] is the opposite. *)
Theorem C90_equality : forall ops i j c d v w,
  let objs := vrun ops [] in
  nth_error objs i = Some (c, v) -> nth_error objs j = Some (d, w) -> same_words c d ->
  exists b, vstep objs (VEqual (VRef i) (VRef j)) = Some (Ok (VBool b), objs) /\
            vstep objs (VEqual (VRef j) (VRef i)) = Some (Ok (VBool b), objs) /\
            vstep objs (VUnequal (VRef i) (VRef j)) = Some (Ok (VBool (negb b)), objs) /\
            (b = true <-> v = w).
Proof.
  intros ops i j c d v w objs Hi Hj S. exists (String.eqb v w).
  pose proof (vrun_words ops [] in_words_nil) as W. fold objs in W.
  cbn [vstep]. unfold py_unequal.
  rewrite (py_equal_words objs i j c d v w W Hi Hj S).
  rewrite (py_equal_words objs j i d c w v W Hj Hi (same_words_sym _ _ S)).
  rewrite (String.eqb_sym w v). cbn. repeat (split; [reflexivity|]). apply String.eqb_eq.
Qed.

(** Comparison with a string, on either side: with a word of the class as expected; with
    another string it raises. *)
Theorem C90_equality_string : forall ops i c v s,
  let objs := vrun ops [] in
  nth_error objs i = Some (c, v) ->
  let both r := vstep objs (VEqual (VRef i) (VNative (NStr s))) = Some (r, objs) /\
                vstep objs (VEqual (VNative (NStr s)) (VRef i)) = Some (r, objs) in
  (In s (vc_types c) -> exists b, both (Ok (VBool b)) /\ (b = true <-> v = s)) /\
  (~ In s (vc_types c) -> both (Raise EAttributeError)).
Proof.
  intros ops i c v s objs Hi both. subst both.
  cbn [vstep]. unfold py_equal. rewrite Hi. cbv iota zeta.
  split; intro I.
  - exists (String.eqb v s). rewrite (equals_taken c v objs _ s) by (split; [constructor|exact I]).
    split; [split; reflexivity|apply String.eqb_eq].
  - unfold equals. cbn [text_of]. rewrite (str_in_notin _ _ I). split; reflexivity.
Qed.

(** Comparison with anything else, an object of another family or a native such as None,
    raises on either side, and never says "different". *)
Theorem C90_equality_other : forall ops i c v x,
  let objs := vrun ops [] in
  nth_error objs i = Some (c, v) -> (forall s, ~ stands_for objs (vc_family c) x s) ->
  vstep objs (VEqual (VRef i) x) = Some (Raise EUnboundLocalError, objs) /\
  vstep objs (VEqual x (VRef i)) = Some (Raise EUnboundLocalError, objs) /\
  vstep objs (VUnequal (VRef i) x) = Some (Raise EUnboundLocalError, objs).
Proof.
  intros ops i c v x objs Hi N.
  assert (Q : equals c v objs x = Raise EUnboundLocalError).
  { unfold equals. rewrite (proj2 (text_of_none _ _ _) N). reflexivity. }
  assert (P : py_equal objs (VRef i) x = Some (Raise EUnboundLocalError) /\
              py_equal objs x (VRef i) = Some (Raise EUnboundLocalError)).
  { unfold py_equal. rewrite Hi. destruct x as [n|j].
    - cbv iota zeta. rewrite Q. auto.
    - destruct (nth_error objs j) as [[d w]|] eqn:Hj.
      + assert (F : vc_family d <> vc_family c).
        { intro F. apply (N w). econstructor; eassumption. }
        assert (D : derived_from d c = false /\ derived_from c d = false).
        { unfold derived_from. destruct (vc_family c), (vc_family d); cbn; split; congruence. }
        destruct D as [-> ->]. split; [rewrite Q; reflexivity|].
        unfold equals at 1. rewrite (proj2 (text_of_none _ _ _)); [reflexivity|].
        intros s S. inversion S; subst. rewrite Hi in H0. inversion H0. subst. congruence.
      + cbv iota zeta. rewrite Q. auto. }
  destruct P as [P1 P2]. cbn [vstep]. unfold py_unequal. rewrite P1, P2. cbn. auto.
Qed.

(** Whatever the classes derived: two objects that compare equal have the same value, and
    two that compare different have different values. *)
Theorem C90_answers : forall ops i j c d v w b,
  let objs := vrun ops [] in
  nth_error objs i = Some (c, v) -> nth_error objs j = Some (d, w) ->
  vstep objs (VEqual (VRef i) (VRef j)) = Some (Ok (VBool b), objs) ->
  vc_family c = vc_family d /\ (b = true <-> v = w).
Proof.
  intros ops i j c d v w b objs Hi Hj H.
  destruct (same_family (vc_family c) (vc_family d)) eqn:F.
  - apply same_family_iff in F. split; [exact F|].
    cbn [vstep] in H. unfold py_equal in H. rewrite Hi, Hj in H.
    destruct (derived_from d c); unfold equals in H; cbn [text_of] in H.
    + rewrite Hi, (proj2 (same_family_iff _ _) F) in H.
      destruct (str_in v (vc_types d)); cbn in H; inversion H. rewrite String.eqb_eq. split; congruence.
    + rewrite Hj, (proj2 (same_family_iff _ _) (eq_sym F)) in H.
      destruct (str_in w (vc_types c)); cbn in H; inversion H. apply String.eqb_eq.
  - assert (N : vc_family d <> vc_family c).
    { intro K. rewrite (proj2 (same_family_iff _ _) (eq_sym K)) in F. discriminate. }
    assert (A : forall s, ~ stands_for objs (vc_family c) (VRef j) s).
    { intros s S. inversion S; subst. rewrite Hj in H1. inversion H1. subst. congruence. }
    destruct (C90_equality_other ops i c v (VRef j) Hi A) as [Q _].
    subst objs. rewrite Q in H. discriminate.
Qed.

(** Looking for an object in a list: items that can be told apart are passed over, the
    first equal one is found, and the first one of another kind raises, even if an equal
    one follows. *)
Theorem C90_in_list : forall ops i c v pre rest,
  let objs := vrun ops [] in
  nth_error objs i = Some (c, v) -> (forall y, In y pre -> told_apart objs c v y) ->
  vstep objs (VIn i pre) = Some (Ok (VBool false), objs) /\
  vstep objs (VIn i (pre ++ VRef i :: rest)) = Some (Ok (VBool true), objs) /\
  vstep objs (VIn i (pre ++ VNative (NStr v) :: rest)) = Some (Ok (VBool true), objs) /\
  (forall j d, nth_error objs j = Some (d, v) -> same_words c d ->
     vstep objs (VIn i (pre ++ VRef j :: rest)) = Some (Ok (VBool true), objs)) /\
  (forall x, (forall s, ~ stands_for objs (vc_family c) x s) ->
     vstep objs (VIn i (pre ++ x :: rest)) = Some (Raise EUnboundLocalError, objs)) /\
  (forall s, ~ In s (vc_types c) ->
     vstep objs (VIn i (pre ++ VNative (NStr s) :: rest)) = Some (Raise EAttributeError, objs)).
Proof.
  intros ops i c v pre rest objs Hi A.
  pose proof (vrun_words ops [] in_words_nil) as W. fold objs in W.
  assert (P : forall l, py_in objs i (pre ++ l)%list = py_in objs i l).
  { intro l. eapply told_apart_all; eassumption. }
  cbn [vstep]. unfold on_object. rewrite Hi.
  split. { replace pre with (pre ++ [])%list at 1 by apply app_nil_r. rewrite P. reflexivity. }
  split. { rewrite P. cbn [py_in]. rewrite Nat.eqb_refl. reflexivity. }
  split.
  { rewrite P. cbn [py_in].
    destruct (C90_equality_string ops i c v v Hi) as [Q _].
    destruct (Q (W _ _ _ Hi)) as (b & [_ K] & B). fold objs in K. cbn [vstep] in K.
    destruct (py_equal objs (VNative (NStr v)) (VRef i)) as [[b'|e]|]; cbn in K; inversion K.
    subst b'. rewrite (proj2 B eq_refl). reflexivity. }
  split.
  { intros j d Hj S. rewrite P. cbn [py_in]. destruct (Nat.eqb j i); [reflexivity|].
    rewrite (py_equal_words objs j i d c v v W Hj Hi (same_words_sym _ _ S)), String.eqb_refl. reflexivity. }
  split.
  { intros x N. rewrite P. cbn [py_in].
    destruct (C90_equality_other ops i c v x Hi N) as (_ & K & _). fold objs in K. cbn [vstep] in K.
    assert (J : match x with VRef j => Nat.eqb j i | VNative _ => false end = false).
    { destruct x as [n|j]; [reflexivity|]. apply Nat.eqb_neq. intros ->.
      apply (N v). econstructor; [exact Hi|reflexivity]. }
    rewrite J. destruct (py_equal objs x (VRef i)) as [[b'|e]|]; cbn in K; inversion K. reflexivity. }
  intros s N. rewrite P. cbn [py_in].
  destruct (C90_equality_string ops i c v s Hi) as [_ Q].
  destruct (Q N) as [_ K]. fold objs in K. cbn [vstep] in K.
  destruct (py_equal objs (VNative (NStr s)) (VRef i)) as [[b'|e]|]; cbn in K; inversion K. reflexivity.
Qed.

(** A copy is a new object of the same class with the same value; it is equal to the
    original, and assignments to either do not change the other. *)
Theorem C90_copy : forall ops i c v ops',
  let objs := vrun ops [] in
  nth_error objs i = Some (c, v) ->
  exists objs', vstep objs (VCopy i) = Some (Ok (VObject (length objs)), objs') /\
    nth_error objs' (length objs) = Some (c, v) /\ nth_error objs (length objs) = None /\
    vstep objs' (VEqual (VRef (length objs)) (VRef i)) = Some (Ok (VBool true), objs') /\
    ((forall x, ~ In (VSet i x) ops') -> nth_error (vrun ops' objs') i = Some (c, v)) /\
    ((forall x, ~ In (VSet (length objs) x) ops') ->
       nth_error (vrun ops' objs') (length objs) = Some (c, v)).
Proof.
  intros ops i c v ops' objs Hi.
  pose proof (vrun_words ops [] in_words_nil) as W. fold objs in W.
  exists (objs ++ [(c, v)])%list.
  assert (S : vstep objs (VCopy i) = Some (Ok (VObject (length objs)), (objs ++ [(c, v)])%list)).
  { cbn [vstep]. unfold on_object. rewrite Hi. reflexivity. }
  assert (N : nth_error (objs ++ [(c, v)])%list (length objs) = Some (c, v)).
  { rewrite nth_error_app2, Nat.sub_diag by lia. reflexivity. }
  assert (O : nth_error (objs ++ [(c, v)])%list i = Some (c, v)) by (apply nth_error_grow; exact Hi).
  assert (K : forall k, (forall x, ~ In (VSet k x) ops') -> nth_error (objs ++ [(c, v)])%list k = Some (c, v) ->
    nth_error (vrun ops' (objs ++ [(c, v)])%list) k = Some (c, v)).
  { intros k Nk Hk. destruct (vrun_value ops' _ _ _ _ Hk) as (w & Hw & [[-> _]|(b & x & a & E & _)]); [exact Hw|].
    destruct (Nk x). rewrite E. apply in_or_app. right. left. reflexivity. }
  split; [exact S|]. split; [exact N|]. split; [apply nth_error_None; lia|]. split.
  - cbn [vstep]. rewrite (py_equal_words _ _ _ c c v v (vstep_words _ _ _ _ S W) N O (same_words_refl c)).
    rewrite String.eqb_refl. reflexivity.
  - split; intro H; apply K; assumption.
Qed.

(** As a condition a rule's effect is true exactly if it is Permit.  A decision is always
    true, Deny included, and so is the effect of an obligation. *)
Theorem C90_truth : forall objs i c v,
  nth_error objs i = Some (c, v) ->
  exists b, vstep objs (VTruth i) = Some (Ok (VBool b), objs) /\
    (vc_family c = RuleEffect -> (b = true <-> v = "Permit"%string)) /\
    (vc_family c <> RuleEffect -> b = true).
Proof.
  intros objs i c v Hi. exists (truth c v). cbn [vstep]. unfold on_object. rewrite Hi.
  split; [reflexivity|]. unfold truth. destruct (vc_family c);
    (split; [intro F; try discriminate; apply String.eqb_eq|intro F; try reflexivity; destruct (F eq_refl)]).
Qed.

(** Printing gives the value; none of these objects can be hashed, so none is a key of a
    dict or a member of a set. *)
Theorem C90_text_and_hash : forall objs i c v,
  nth_error objs i = Some (c, v) ->
  vstep objs (VText i) = Some (Ok (VString v), objs) /\
  vstep objs (VHash i) = Some (Raise ETypeError, objs).
Proof.
  intros objs i c v Hi. cbn [vstep]. unfold on_object. rewrite Hi. split; reflexivity.
Qed.

(** The classes PermitEffect, DenyEffect, PermitDecision and so on are documented as read
    only.  They are not: assignment to the shared objects is taken. *)
Theorem C90_not_read_only : forall ops i c v word s,
  nth_error (vrun ops shared) i = Some (c, v) -> vc_fixed c = Some word -> In s (vc_types c) ->
  exists objs', vstep (vrun ops shared) (VSet i (VNative (NStr s))) = Some (Ok VDone, objs') /\
    nth_error objs' i = Some (c, s).
Proof.
  intros ops i c v word s Hi _ I.
  destruct (proj1 (C90_assignment _ _ _ _ (VNative (NStr s)) Hi) s (by_string _ _ _) I) as (objs' & S & D & _).
  exists objs'. split; [exact S|]. exact (D _ _ Hi).
Qed.

(** The shared objects, and a class with a further word. *)
Definition maybe_effect : vclass := mkVClass RuleEffect ["MaybeEffect"] ["Deny"; "Permit"; "Maybe"]%string None.
Example C90_case :
  shared = [(permit_effect, "Permit"); (deny_effect, "Deny"); (permit_decision, "Permit");
            (deny_decision, "Deny"); (indeterminate_decision, "Indeterminate");
            (not_applicable_decision, "NotApplicable")]%string /\
  let ops := [VNew maybe_effect (Some (VNative (NStr "Maybe"))); VNew rule_effect (Some (VRef 0));
              VNew rule_effect (Some (VRef 6)); VNew obligation_effect (Some (VNative (NStr "Deny")));
              VSet 7 (VRef 8); VSet 7 (VRef 6); VSet 6 (VRef 7); VSet 0 (VNative (NStr "Deny")); VCopy 0;
              VSet 3 (VNative (NStr "Permit"))]%string in
  let objs := vrun ops shared in
  map snd objs = ["Deny"; "Deny"; "Permit"; "Permit"; "Indeterminate"; "NotApplicable";
                  "Permit"; "Permit"; "Deny"; "Deny"]%string /\
  same_words permit_effect rule_effect /\
  vstep objs (VEqual (VRef 0) (VRef 1)) = Some (Ok (VBool true), objs) /\
  vstep objs (VEqual (VRef 6) (VRef 7)) = Some (Ok (VBool true), objs) /\
  vstep objs (VEqual (VRef 8) (VRef 1)) = Some (Raise EUnboundLocalError, objs) /\
  vstep objs (VEqual (VRef 0) (VNative NNone)) = Some (Raise EUnboundLocalError, objs) /\
  vstep objs (VIn 7 [VRef 1; VNative (NStr "Deny"); VRef 6; VRef 8]%string) = Some (Ok (VBool true), objs) /\
  vstep objs (VIn 7 [VRef 1; VRef 8; VRef 6]) = Some (Raise EUnboundLocalError, objs) /\
  vstep shared (VTruth 3) = Some (Ok (VBool true), shared) /\
  vstep shared (VTruth 1) = Some (Ok (VBool false), shared).
Proof. repeat split; try reflexivity; try tauto. Qed.

Print Assumptions C90_vocabulary.
Print Assumptions C90_words.
Print Assumptions C90_assignment.
Print Assumptions C90_only_assignment_changes.
Print Assumptions C90_value_assigned_last.
Print Assumptions C90_new.
Print Assumptions C90_equality.
Print Assumptions C90_equality_string.
Print Assumptions C90_equality_other.
Print Assumptions C90_answers.
Print Assumptions C90_in_list.
Print Assumptions C90_copy.
Print Assumptions C90_truth.
Print Assumptions C90_text_and_hash.
Print Assumptions C90_not_read_only.
