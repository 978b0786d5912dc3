(** C91: the members of all policy and context objects. *)
From Coq Require Import Lia.
From Verif Require Import Members SpecMembers MembersFacts.
Local Open Scope string_scope.
Local Open Scope list_scope.

(** Objects are made exactly of the complete classes; for the others NotImplementedError is
    raised and nothing is made. *)
Theorem C91_creation : forall objs c,
  (complete c -> exists s, mstep objs (MNew c) = (Ok tt, objs ++ [(c, s)])) /\
  (~ complete c -> mstep objs (MNew c) = (Raise ENotImplementedError, objs)).
Proof.
  intros objs c. split.
  - intros []; cbn [mstep mnew]; try (eexists; reflexivity).
    destruct (library_init c0); eexists; reflexivity.
  - intro N. destruct c as [c| | | |[] [[]|]]; cbn; try reflexivity;
      try (destruct N; constructor); destruct match_type; try reflexivity; destruct N; constructor.
Qed.

(** xmlns after every history: the string assigned last; else the XACML 2.0 policy namespace
    for subjects, resources, actions and environments of targets, and None for the others,
    except matches, targets and obligations, where reading raises AttributeError. *)
Theorem C91_namespace : forall before c after,
  complete c -> ~ without_members c ->
  let i := length (mrun before []) in
  read_xmlns (mrun (before ++ MNew c :: after) []) i =
  match last_xmlns i after with
  | Some s => Ok (PNat (NStr s))
  | None => read_xmlns (mrun (before ++ [MNew c]) []) i
  end /\
  (policy_based c -> read_xmlns (mrun (before ++ [MNew c]) []) i =
     Ok (PNat (NStr "urn:oasis:names:tc:xacml:2.0:policy:schema:os"))) /\
  (leaves_out_base c -> read_xmlns (mrun (before ++ [MNew c]) []) i = Raise EAttributeError) /\
  (~ policy_based c -> ~ leaves_out_base c -> read_xmlns (mrun (before ++ [MNew c]) []) i = Ok (PNat NNone)).
Proof.
  intros before c after C W i.
  assert (M : has_members c = true).
  { destruct C as [[[]| | | | | | |]| | | |]; try reflexivity; destruct W; constructor. }
  assert (S : exists s, mnew c = Ok s).
  { destruct C; cbn [mnew]; try (eexists; reflexivity). destruct (library_init c); eauto. }
  destruct S as [s S]. rewrite !(mnew_at before c _ s S).
  pose proof (nth_error_last (mrun before []) (c, s)) as N. fold i in N.
  destruct (mrun_slots after _ i c s N M) as (s' & H & X & _ & _).
  assert (Z : read_xmlns (mrun [] (mrun before [] ++ [(c, s)])) i = slot s "xmlns").
  { unfold read_xmlns. cbn [mrun fold_left]. rewrite N, M. reflexivity. }
  rewrite Z. split; [|split; [|split]].
  - unfold read_xmlns. rewrite H, M. unfold slot. rewrite X. destruct (last_xmlns i after); reflexivity.
  - intros P. destruct P; cbn in S; try (destruct n as [[n|]|]; try discriminate);
      try (destruct t; try discriminate); inversion S; reflexivity.
  - intros P. destruct P; cbn in S; inversion S; reflexivity.
  - intros P L. destruct C as [[[]| | | | | | |]| | | |]; cbn in S; inversion S; try reflexivity;
      try (destruct P; constructor); try (destruct L; constructor); destruct W; constructor.
Qed.

(** isValidXmlns is true exactly if one of the two namespaces "urn:oasis:names:tc:xacml:1.0"
    and "urn:oasis:names:tc:xacml:2.0" was assigned last: never for an object as it was made
    or read, whatever its class. *)
Theorem C91_valid : forall before c after,
  complete c ->
  let i := length (mrun before []) in
  is_valid_xmlns (mrun (before ++ MNew c :: after) []) i = Ok true <->
  (~ without_members c /\
   (last_xmlns i after = Some "urn:oasis:names:tc:xacml:1.0" \/
    last_xmlns i after = Some "urn:oasis:names:tc:xacml:2.0")).
Proof.
  intros before c after C i.
  assert (D : without_members c \/ ~ without_members c).
  { destruct c as [[[]| | | | | | |]| | | |]; try (left; constructor); right; intro X; inversion X. }
  destruct D as [W|W].
  - split; [|intros [N _]; destruct (N W)]. intro H. exfalso.
    assert (S : exists s, mnew c = Ok s).
    { destruct W; cbn; eauto. }
    destruct S as [s S]. rewrite (mnew_at before c _ s S) in H.
    pose proof (nth_error_last (mrun before []) (c, s)) as N. fold i in N.
    assert (M : has_members c = false) by (destruct W; reflexivity).
    unfold is_valid_xmlns, read_xmlns in H. rewrite (mrun_lost _ _ _ _ _ N M), M in H. discriminate.
  - destruct (C91_namespace before c after C W) as (R & P & L & O). fold i in R, P, L, O.
    unfold is_valid_xmlns. rewrite R.
    destruct (last_xmlns i after) as [s|].
    + cbn [bind]. unfold XMLNS, str_in. cbn [existsb].
      destruct (String.eqb_spec s "urn:oasis:names:tc:xacml:1.0") as [->|N1];
        [split; auto|].
      destruct (String.eqb_spec s "urn:oasis:names:tc:xacml:2.0") as [->|N2]; [split; auto|].
      cbn. split; [discriminate|]. intros [_ [H|H]]; inversion H; congruence.
    + split; [|intros [_ [H|H]]; discriminate].
      assert (B : policy_based c \/ leaves_out_base c \/ (~ policy_based c /\ ~ leaves_out_base c)).
      { destruct c as [[[]| | | | | | |]| | | |[] n]; try (left; constructor);
          try (right; left; constructor); right; right; split; intro X; inversion X. }
      destruct B as [B|[B|[B1 B2]]].
      * rewrite (P B). cbn. discriminate.
      * rewrite (L B). cbn. discriminate.
      * rewrite (O B1 B2). cbn. discriminate.
Qed.

(** elem after every history: the value assigned last, of whatever kind; else None, except
    for matches, targets and obligations. *)
Theorem C91_element : forall before c after,
  complete c -> ~ without_members c ->
  let i := length (mrun before []) in
  read_elem (mrun (before ++ MNew c :: after) []) i =
  match last_elem i after with
  | Some v => Ok v
  | None => read_elem (mrun (before ++ [MNew c]) []) i
  end /\
  (leaves_out_base c -> read_elem (mrun (before ++ [MNew c]) []) i = Raise EAttributeError) /\
  (~ leaves_out_base c -> read_elem (mrun (before ++ [MNew c]) []) i = Ok (PNat NNone)).
Proof.
  intros before c after C W i.
  assert (M : has_members c = true).
  { destruct C as [[[]| | | | | | |]| | | |]; try reflexivity; destruct W; constructor. }
  assert (S : exists s, mnew c = Ok s).
  { destruct C; cbn [mnew]; try (eexists; reflexivity). destruct (library_init c); eauto. }
  destruct S as [s S]. rewrite !(mnew_at before c _ s S).
  pose proof (nth_error_last (mrun before []) (c, s)) as N. fold i in N.
  destruct (mrun_slots after _ i c s N M) as (s' & H & _ & X & _).
  assert (Z : read_elem (mrun [] (mrun before [] ++ [(c, s)])) i = slot s "elem").
  { unfold read_elem. cbn [mrun fold_left]. rewrite N, M. reflexivity. }
  rewrite Z. split; [|split].
  - unfold read_elem. rewrite H, M. unfold slot. rewrite X. destruct (last_elem i after); reflexivity.
  - intros P. destruct P; cbn in S; inversion S; reflexivity.
  - intros L. destruct C as [[[]| | | | | | |]| | | |]; cbn in S; inversion S; try reflexivity;
      try (destruct L; constructor); destruct W; constructor.
Qed.

(** Which assignments are taken: a string for xmlns, anything for elem; the members cannot
    be deleted; what is refused changes nothing. *)
Theorem C91_assignment : forall before c after v,
  complete c -> ~ without_members c ->
  let i := length (mrun before []) in
  let objs := mrun (before ++ MNew c :: after) [] in
  (fst (mstep objs (MSetXmlns i v)) = Ok tt <-> exists s, v = PNat (NStr s)) /\
  ((forall s, v <> PNat (NStr s)) -> mstep objs (MSetXmlns i v) = (Raise ETypeError, objs)) /\
  fst (mstep objs (MSetElem i v)) = Ok tt /\
  mstep objs (MDelXmlns i) = (Raise EAttributeError, objs) /\
  mstep objs (MDelElem i) = (Raise EAttributeError, objs).
Proof.
  intros before c after v C W i objs.
  assert (M : has_members c = true).
  { destruct C as [[[]| | | | | | |]| | | |]; try reflexivity; destruct W; constructor. }
  assert (S : exists s, mnew c = Ok s).
  { destruct C; cbn [mnew]; try (eexists; reflexivity). destruct (library_init c); eauto. }
  destruct S as [s S]. subst objs. rewrite (mnew_at before c _ s S).
  pose proof (nth_error_last (mrun before []) (c, s)) as N. fold i in N.
  destruct (mrun_slots after _ i c s N M) as (s' & H & _).
  cbn [mstep]. rewrite H, M. split; [|split; [|split; [|split]]]; try reflexivity.
  - destruct v as [[]| | | | | |]; cbn; (split; [intro K; try discriminate K; eauto|intros [t K]; inversion K; reflexivity]).
  - intro K. destruct v as [[]| | | | | |]; try reflexivity. destruct (K s0 eq_refl).
Qed.

(** Operations on one object leave the others as they are. *)
Theorem C91_separate : forall objs i c s o,
  nth_error objs i = Some (c, s) ->
  (forall v, o <> MSetXmlns i v) -> (forall v, o <> MSetElem i v) ->
  nth_error (snd (mstep objs o)) i = Some (c, s).
Proof.
  intros objs i c s o H A B. rewrite (mstep_at _ o _ _ _ H). destruct o as [k|j v|j v|j|j]; try reflexivity.
  - destruct (Nat.eqb_spec j i) as [->|]; [destruct (A v eq_refl)|]. destruct v as [[]| | | | | |]; reflexivity.
  - destruct (Nat.eqb_spec j i) as [->|]; [destruct (B v eq_refl)|]. reflexivity.
Qed.

(** Matches, targets and obligations can never be copied or pickled, whatever is assigned:
    two of the members that the copy is made of cannot be assigned.  Conditions, parts of
    targets, rules, policies and policy sets can, but what is saved are these four
    members alone: the two that can be read as they are read, the others as None. *)
Theorem C91_copy : forall E before c after own,
  let i := length (mrun before []) in
  (forall k, In k ["xmlns"; "elem"; "reader"; "writer"] -> dict_get k own = None) ->
  (leaves_out_base (MLibrary c) ->
     copy_state E (mrun (before ++ MNew (MLibrary c) :: after) []) i own = Some (Raise EAttributeError)) /\
  (copied_by_members c ->
     exists x e,
       read_xmlns (mrun (before ++ MNew (MLibrary c) :: after) []) i = Ok x /\
       read_elem (mrun (before ++ MNew (MLibrary c) :: after) []) i = Ok e /\
       copy_state E (mrun (before ++ MNew (MLibrary c) :: after) []) i own =
       Some (Ok [("xmlns", SVal x); ("reader", SVal (PNat NNone)); ("writer", SVal (PNat NNone)); ("elem", SVal e)])).
Proof.
  intros E before c after own i O.
  assert (S : mnew (MLibrary c) = Ok (match library_init c with Some s => s | None => [] end)).
  { cbn. destruct (library_init c); reflexivity. }
  rewrite !(mnew_at before _ _ _ S).
  set (s := match library_init c with Some s => s | None => [] end) in *.
  pose proof (nth_error_last (mrun before []) (MLibrary c, s)) as N. fold i in N.
  assert (A : forall k (a b : list (string * pval)), dict_get k (a ++ b) = match dict_get k a with Some v => Some v | None => dict_get k b end).
  { intros k a b. induction a as [|[q w] a IH]; [reflexivity|]. cbn. destruct (String.eqb k q); [reflexivity|exact IH]. }
  split; intro L.
  - assert (M : has_members (MLibrary c) = true) by (inversion L; reflexivity).
    destruct (mrun_slots after _ i _ s N M) as (s' & H & _ & _ & R).
    unfold copy_state. rewrite H.
    assert (G : dict_get "reader" (s' ++ own) = None).
    { rewrite A, (R "reader") by discriminate. inversion L; subst c; cbn; apply O; cbn; tauto. }
    assert (K : getstate E c (s' ++ own) = core_getstate (s' ++ own)) by (inversion L; reflexivity).
    rewrite K. unfold core_getstate, save, slot. cbn [mapM].
    destruct (dict_get "xmlns" (s' ++ own)); cbn [bind]; [|reflexivity]. rewrite G. reflexivity.
  - assert (M : has_members (MLibrary c) = true) by (inversion L; reflexivity).
    destruct (mrun_slots after _ i _ s N M) as (s' & H & X & Y & R).
    unfold copy_state, read_xmlns, read_elem, slot. rewrite H, M.
    assert (G1 : exists v, dict_get "xmlns" s' = Some v).
    { rewrite X. destruct (last_xmlns i after); [eauto|]. inversion L; subst c; cbn; eauto. }
    assert (G4 : exists v, dict_get "elem" s' = Some v).
    { rewrite Y. destruct (last_elem i after); [eauto|]. inversion L; subst c; cbn; eauto. }
    destruct G1 as [v1 G1], G4 as [v4 G4].
    assert (G2 : dict_get "reader" (s' ++ own) = Some (PNat NNone)).
    { rewrite A, R by discriminate. inversion L; subst c; reflexivity. }
    assert (G3 : dict_get "writer" (s' ++ own) = Some (PNat NNone)).
    { rewrite A, R by discriminate. inversion L; subst c; reflexivity. }
    exists v1, v4. rewrite G1, G4. split; [reflexivity|]. split; [reflexivity|].
    assert (G1' : dict_get "xmlns" (s' ++ own) = Some v1) by (rewrite A, G1; reflexivity).
    assert (G4' : dict_get "elem" (s' ++ own) = Some v4) by (rewrite A, G4; reflexivity).
    assert (K : getstate E c (s' ++ own) = core_getstate (s' ++ own) \/
                getstate E c (s' ++ own) = context_getstate (s' ++ own)) by (inversion L; auto).
    assert (Q : core_getstate (s' ++ own) =
      Ok [("xmlns", SVal v1); ("reader", SVal (PNat NNone)); ("writer", SVal (PNat NNone)); ("elem", SVal v4)]).
    { unfold core_getstate, save, slot. cbn [mapM]. rewrite G1'. cbn [bind]. rewrite G2. cbn [bind].
      rewrite G3. cbn [bind]. rewrite G4'. reflexivity. }
    destruct K as [K|K]; rewrite K; unfold context_getstate; rewrite Q; reflexivity.
Qed.

Example C91_case :
  let str s := PNat (NStr s) in
  let ops := [MNew (MLibrary (CCore KTarget)); MNew (MLibrary (CCore KPolicy));
              MNew (MUser OnPolicy (Some (Some "Extension"))); MNew (MUser OnContext None);
              MNew MVariableDefinition; MNew (MLibrary (CCore (KTargetChild DSubject)));
              MSetXmlns 0 (str "urn:oasis:names:tc:xacml:2.0"); MSetXmlns 1 PNone; MSetElem 1 (PRef 7)] in
  let objs := mrun ops [] in
  length objs = 4 /\ complete (MUser OnPolicy (Some (Some "Extension"))) /\
  ~ without_members (MLibrary (CCore KTarget)) /\ leaves_out_base (MLibrary (CCore KTarget)) /\
  map (read_xmlns objs) [0; 1; 2; 3] =
    [Ok (str "urn:oasis:names:tc:xacml:2.0"); Ok PNone;
     Ok (str "urn:oasis:names:tc:xacml:2.0:policy:schema:os");
     Ok (str "urn:oasis:names:tc:xacml:2.0:policy:schema:os")] /\
  map (read_elem objs) [0; 1] = [Raise EAttributeError; Ok (PRef 7)] /\
  map (is_valid_xmlns objs) [0; 1; 2] = [Ok true; Ok false; Ok false].
Proof.
  repeat (split; [first [reflexivity|constructor|intro X; inversion X]|]). reflexivity.
Qed.

Print Assumptions C91_creation.
Print Assumptions C91_namespace.
Print Assumptions C91_valid.
Print Assumptions C91_element.
Print Assumptions C91_assignment.
Print Assumptions C91_separate.
Print Assumptions C91_copy.
