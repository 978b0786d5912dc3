(** C95: typed and unique lists under all methods of lists. *)
From Coq Require Import Permutation Lia.
From Verif Require Import SpecListMethods UtilsFacts ListMethodsFacts.
Local Open Scope list_scope.

(** ** C95 *)

(** After any history of calls, an item that is not an instance of the element
    type was given to insert, item or slice assignment, or a repeated __init__. *)
Theorem C95_typed : forall A inst same eq (cs : list (lcall A)) x,
  (forall c, In c cs -> sorts c) ->
  In x (typed_calls inst same eq cs []) ->
  inst x = true \/ exists c, In c cs /\ In x (slipped_in c).
Proof.
  intros A inst same eq cs x Hs H.
  destruct (typed_history inst same eq cs [] x Hs H) as [[]|K]. exact K.
Qed.

(** So removing, rearranging and multiplying keep a list of instances one. *)
Theorem C95_kept : forall A inst same eq (cs : list (lcall A)) l,
  (forall c, In c cs -> sorts c /\ slipped_in c = []) ->
  (forall x, In x l -> inst x = true) ->
  forall x, In x (typed_calls inst same eq cs l) -> inst x = true.
Proof.
  intros A inst same eq cs l Hc Hl x H.
  destruct (typed_history inst same eq cs l x (fun c h => proj1 (Hc c h)) H)
    as [K|[K|(c & Hi & K)]]; auto.
  destruct (Hc c Hi) as (_ & Hn). rewrite Hn in K. destruct K.
Qed.

(** The others let anything in: insert everywhere, item assignment at each index
    in range, slice assignment and __init__ everywhere. *)
Theorem C95_slipped : forall A inst same eq (l : list A) c,
  match c with CSet i _ => (- Z.of_nat (length l) <= i < Z.of_nat (length l))%Z | _ => True end ->
  slipped_in c <> [] ->
  fst (call (tl_step inst) same eq l c) = Ok tt /\
  forall x, In x (slipped_in c) -> In x (snd (call (tl_step inst) same eq l c)).
Proof.
  intros A inst same eq l c Hi Hn. destruct c; cbn [slipped_in] in *; try congruence; cbn [call].
  - auto.
  - split; [reflexivity|]. intros y Hy. cbn [snd]. unfold put_between.
    apply in_or_app. right. apply in_or_app. auto.
  - unfold index_of. cbv zeta.
    match goal with |- context [if ((?k <? 0) || _)%Z then _ else _] => set (k0 := k) end.
    assert (R : ((k0 <? 0) || (Z.of_nat (length l) <=? k0))%Z = false).
    { subst k0. apply orb_false_iff. destruct (Z.ltb_spec i 0); split;
        try apply Z.ltb_ge; try apply Z.leb_gt; lia. }
    rewrite R. split; [reflexivity|]. intros y Hy. cbn [snd]. unfold put_between.
    apply in_or_app. right. apply in_or_app. auto.
  - destruct (slice_of i j l) as [a b]. split; [reflexivity|]. intros y Hy. cbn [snd].
    unfold put_between. apply in_or_app. right. apply in_or_app. auto.
Qed.

(** A unique list stays without duplicates under everything but insert, item and
    slice assignment, *= and a repeated __init__ (and extending it by items that
    are equal to each other). *)
Theorem C95_unique : forall A same eq (cs : list (lcall A)) l,
  (forall x y, eq x y = Ok false -> eq y x = Ok false) ->
  no_equal eq l ->
  (forall c, In c cs -> sorts c /\ adds c = false /\
     (forall o, c = COwn o -> match o with LAppend _ => True | _ => no_equal eq (offered o) end)) ->
  no_equal eq (uniq_calls same eq cs l).
Proof. intros A same eq cs l Hs. apply uniq_history. exact Hs. Qed.

(** Each of these five can introduce a duplicate. *)
Theorem C95_repeated :
  Forall (fun c : lcall nat => adds c = true /\
    ~ no_equal (fun x y => Ok (Nat.eqb x y))
        (uniq_calls Nat.eqb (fun x y => Ok (Nat.eqb x y)) [COwn (LExtend (Reiterable [1; 2])); c] []))
  [CInit [3; 3]; CInsert 0 2; CSet (-1) 1; CSetSlice (Some 0%Z) None [1; 1]; CImul 2].
Proof.
  assert (D : forall l i j, Nat.ltb i j = true ->
     match nth_error l i, nth_error l j with Some x, Some y => Nat.eqb x y | _, _ => false end = true ->
     ~ no_equal (fun x y => Ok (Nat.eqb x y)) l).
  { intros l i j Hij H N. destruct (nth_error l i) as [x|] eqn:E1; [|discriminate].
    destruct (nth_error l j) as [y|] eqn:E2; [|discriminate].
    apply Nat.ltb_lt in Hij. specialize (N i j x y Hij E1 E2). congruence. }
  repeat constructor.
  - apply (D _ 0 1); reflexivity.
  - apply (D _ 0 2); reflexivity.
  - apply (D _ 0 1); reflexivity.
  - apply (D _ 0 1); reflexivity.
  - apply (D _ 0 2); reflexivity.
Qed.

(** A call that fails, other than sort, changes nothing, in both classes. *)
Theorem C95_failed : forall A inst same eq (l : list A) c e,
  (forall f, c <> CSort f) ->
  (fst (call (tl_step inst) same eq l c) = Raise e -> snd (call (tl_step inst) same eq l c) = l) /\
  (fst (call (ul_step same eq) same eq l c) = Raise e -> snd (call (ul_step same eq) same eq l c) = l).
Proof.
  intros A inst same eq l c e Hc. split; intros H; eapply call_fails; eauto.
  - intros o Ho. destruct (tl_step_spec inst l o) as [H1 H2].
    destruct (forallb inst (offered o)); [rewrite (H1 eq_refl) in Ho; discriminate|].
    rewrite (H2 eq_refl). reflexivity.
  - intros o Ho. eapply ul_step_raise; eauto.
Qed.

Example C95_case :
  let eqn := fun x y => Ok (Nat.eqb x y) in
  let cs := [COwn (LExtend (Reiterable [2; 4; 6; 8])); CReverse; CPop None; CDel (-3); CRemove 4;
             COwn (LAppend 5); COwn (LAppend 12); CImul 2; CDelSlice (Some (-1)%Z) None; CPop (Some 7%Z);
             CRemove 100; CSort (fun l => (Raise ETypeError, rev l))] in
  (forall c, In c cs -> sorts c /\ slipped_in c = []) /\
  typed_calls Nat.even Nat.eqb eqn cs [] = [6; 12; 6] /\
  typed_calls Nat.even Nat.eqb eqn (cs ++ [CInsert 1 7; CSet (-1) 9; CSet 4 1]) [] = [6; 7; 12; 9] /\
  uniq_calls Nat.eqb eqn
    [COwn (LAppend 3); COwn (LAppend 1); CReverse; COwn (LAppend 3); CDel 0; COwn (LAppend 1)] [] = [3; 1].
Proof.
  cbv zeta. split; [|vm_compute; auto].
  intros c Hc. cbn [In] in Hc.
  repeat (destruct Hc as [<-|Hc]; [split; [|reflexivity]|]); try destruct Hc; try exact I.
  intros l. apply Permutation_sym, Permutation_rev.
Qed.

Print Assumptions C95_typed.
Print Assumptions C95_kept.
Print Assumptions C95_slipped.
Print Assumptions C95_unique.
Print Assumptions C95_repeated.
Print Assumptions C95_failed.
