(** Proofs about the members of all objects (C91). *)
From Coq Require Import Lia.
From Verif Require Import Members SpecMembers.
Local Open Scope string_scope.
Local Open Scope list_scope.

Lemma mput_same : forall objs i c s s', nth_error objs i = Some (c, s) ->
  nth_error (mput i s' objs) i = Some (c, s').
Proof.
  induction objs as [|[d t] r IH]; intros [|i] c s s' H; cbn in *; try discriminate.
  - inversion H. reflexivity.
  - eapply IH. exact H.
Qed.
Lemma mput_other : forall objs i j s, j <> i -> nth_error (mput i s objs) j = nth_error objs j.
Proof.
  induction objs as [|[d t] r IH]; intros [|i] [|j] s N; cbn; try reflexivity; try lia.
  apply IH. lia.
Qed.
Lemma mput_length : forall objs i s, length (mput i s objs) = length objs.
Proof. induction objs as [|[d t] r IH]; intros [|i] s; cbn; try reflexivity. rewrite IH. reflexivity. Qed.

Lemma nth_error_last : forall {A} (l : list A) x, nth_error (l ++ [x]) (length l) = Some x.
Proof. intros. rewrite nth_error_app2, Nat.sub_diag by lia. reflexivity. Qed.

(** One step, seen from object [i]. *)
Lemma mstep_at : forall objs o i c s, nth_error objs i = Some (c, s) ->
  nth_error (snd (mstep objs o)) i =
  Some (c, match o with
           | MSetXmlns j (PNat (NStr x)) =>
               if (Nat.eqb j i && has_members c)%bool then dict_set "xmlns" (PNat (NStr x)) s else s
           | MSetElem j v => if (Nat.eqb j i && has_members c)%bool then dict_set "elem" v s else s
           | _ => s
           end).
Proof.
  intros objs o i c s H.
  assert (L : forall j d t (f : list (string * pval)), nth_error objs j = Some (d, t) ->
    nth_error (mput j f objs) i = Some (c, if Nat.eqb j i then f else s)).
  { intros j d t f J. destruct (Nat.eqb_spec j i) as [->|N].
    - eapply mput_same. exact H.
    - rewrite mput_other by congruence. exact H. }
  destruct o as [k|j v|j v|j|j]; cbn [mstep]; try exact H.
  - destruct (mnew k) as [t|e]; [|exact H]. cbn [snd].
    rewrite nth_error_app1; [exact H|]. apply nth_error_Some. congruence.
  - destruct (nth_error objs j) as [[d t]|] eqn:J.
    + assert (D : Nat.eqb j i = true -> d = c /\ t = s).
      { intro X. apply Nat.eqb_eq in X. subst j. rewrite H in J. inversion J. auto. }
      destruct v as [[]| | | | | |]; cbn [snd];
        try (destruct (has_members d); exact H).
      destruct (Nat.eqb j i) eqn:X.
      * destruct (D eq_refl) as [-> ->]. destruct (has_members c); [|exact H].
        cbn [snd andb]. rewrite (L _ _ _ _ J), X. reflexivity.
      * destruct (has_members d); [|exact H]. cbn [snd andb]. rewrite (L _ _ _ _ J), X. reflexivity.
    + assert (X : Nat.eqb j i = false) by (apply Nat.eqb_neq; congruence).
      cbn [snd]. rewrite X. destruct v as [[]| | | | | |]; exact H.
  - destruct (nth_error objs j) as [[d t]|] eqn:J.
    + destruct (Nat.eqb_spec j i) as [->|N].
      * rewrite H in J. inversion J; subst d t. destruct (has_members c); [|exact H].
        cbn [snd andb]. rewrite (L _ _ _ _ H), Nat.eqb_refl. reflexivity.
      * destruct (has_members d); [|exact H]. cbn [snd andb]. rewrite (L _ _ _ _ J).
        rewrite (proj2 (Nat.eqb_neq j i) N). reflexivity.
    + assert (X : Nat.eqb j i = false) by (apply Nat.eqb_neq; congruence).
      cbn [snd]. rewrite X. exact H.
Qed.

Lemma mstep_absent : forall objs o i, nth_error objs i = None ->
  (forall c, o <> MNew c) -> nth_error (snd (mstep objs o)) i = None.
Proof.
  intros objs o i H N. apply nth_error_None in H. apply nth_error_None.
  assert (L : length (snd (mstep objs o)) = length objs).
  { destruct o as [k|j v|j v|j|j]; cbn [mstep]; try reflexivity.
    - destruct (N k eq_refl).
    - destruct (nth_error objs j) as [[d t]|]; [|reflexivity]. destruct (has_members d); [|reflexivity].
      destruct v as [[]| | | | | |]; try reflexivity. apply mput_length.
    - destruct (nth_error objs j) as [[d t]|]; [|reflexivity]. destruct (has_members d); [|reflexivity].
      apply mput_length. }
  rewrite L. exact H.
Qed.

Lemma mrun_app : forall a b objs, mrun (a ++ b) objs = mrun b (mrun a objs).
Proof. intros. apply fold_left_app. Qed.

Lemma dict_get_set_same : forall {A} k (v : A) d, dict_get k (dict_set k v d) = Some v.
Proof.
  intros A k v d. induction d as [|[k' v'] d IH]; cbn.
  - rewrite String.eqb_refl. reflexivity.
  - destruct (String.eqb k k') eqn:E; cbn; rewrite E; [reflexivity|exact IH].
Qed.
Lemma dict_get_set_other : forall {A} k k' (v : A) d, k' <> k -> dict_get k' (dict_set k v d) = dict_get k' d.
Proof.
  intros A k k' v d N. induction d as [|[q w] d IH]; cbn.
  - destruct (String.eqb_spec k' k); [congruence|reflexivity].
  - destruct (String.eqb_spec k q) as [->|M]; cbn.
    + destruct (String.eqb_spec k' q); [congruence|reflexivity].
    + destruct (String.eqb k' q); [reflexivity|exact IH].
Qed.

(** The slots of object [i] after a history. *)
Lemma mrun_slots : forall ops objs i c s, nth_error objs i = Some (c, s) -> has_members c = true ->
  exists s', nth_error (mrun ops objs) i = Some (c, s') /\
    dict_get "xmlns" s' = match last_xmlns i ops with Some x => Some (PNat (NStr x)) | None => dict_get "xmlns" s end /\
    dict_get "elem" s' = match last_elem i ops with Some v => Some v | None => dict_get "elem" s end /\
    (forall k, k <> "xmlns" -> k <> "elem" -> dict_get k s' = dict_get k s).
Proof.
  induction ops as [|o ops IH]; intros objs i c s H M.
  - exists s. auto.
  - cbn [mrun fold_left]. destruct (IH _ i c _ (mstep_at objs o i c s H) M) as (s' & H' & X & L & R).
    exists s'. split; [exact H'|]. rewrite X, L. cbn [last_xmlns last_elem]. clear IH X L H' H.
    rewrite M in *. destruct (last_xmlns i ops) as [x|], (last_elem i ops) as [y|];
      destruct o as [k|j v|j v|j|j]; try (split; [reflexivity|split; [reflexivity|exact R]]);
      destruct v as [[]| | | | | |]; try (destruct (Nat.eqb j i));
      cbn [andb] in *; (split; [try reflexivity|split; [try reflexivity|]]);
      try exact R;
      try (apply dict_get_set_same);
      try (apply dict_get_set_other; discriminate);
      try (intros q N1 N2; rewrite (R q N1 N2); apply dict_get_set_other; assumption).
Qed.

Lemma mrun_lost : forall ops objs i c s, nth_error objs i = Some (c, s) -> has_members c = false ->
  nth_error (mrun ops objs) i = Some (c, s).
Proof.
  induction ops as [|o ops IH]; intros objs i c s H M; [exact H|].
  cbn [mrun fold_left]. apply IH; [|exact M]. rewrite (mstep_at objs o i c s H). rewrite M.
  destruct o as [k|j v|j v|j|j]; try reflexivity; [destruct v as [[]| | | | | |]; try reflexivity|];
    destruct (Nat.eqb j i); reflexivity.
Qed.

Lemma mnew_at : forall before c after s, mnew c = Ok s ->
  mrun (before ++ MNew c :: after) [] = mrun after (mrun before [] ++ [(c, s)]).
Proof.
  intros before c after s H. rewrite mrun_app. cbn [mrun fold_left]. cbn [mstep]. rewrite H. reflexivity.
Qed.
