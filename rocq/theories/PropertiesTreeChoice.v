(** C81: one element tree library for the whole process. *)
From Verif Require Import TreeChoice SpecTreeChoice TreeChoiceFacts.

Definition t_none : libs := fun t => match t with XmlEtree => Ok tt | _ => Raise EImportError end.
Definition t_all : libs := fun t => match t with OldEtree => Raise EImportError | _ => Ok tt end.

(** All modules agree whether they use lxml, with each other and with Config, whatever can be imported
    when; also the ones that decided at their loading what methods to have. *)
Theorem C81_agree : forall h m m' t t', only_loads h ->
  uses (t_run h fresh) m t -> uses (t_run h fresh) m' t' ->
  (t = Lxml <-> t' = Lxml) /\
  tw_config (t_run h fresh) = Some (match t with Lxml => true | _ => false end).
Proof.
  intros h m m' t t' Ho [c H] [c' H']. destruct h as [|[m0 l|b] h].
  - destruct H.
  - destruct (first_settles m0 l) as [b Hb]. cbn [t_run] in *.
    pose proof (run_settled h b _ (fun x Hx => Ho x (or_intror Hx)) Hb) as [S1 S2].
    destruct (S2 _ _ _ H) as (_ & A1 & A2), (S2 _ _ _ H') as (_ & B1 & B2). rewrite S1. destruct b.
    + rewrite (A1 eq_refl), (B1 eq_refl). split; [tauto|reflexivity].
    + specialize (A2 eq_refl). specialize (B2 eq_refl). split; [tauto|]. destruct t; congruence.
  - exfalso. apply (Ho b). left. reflexivity.
Qed.
(** They use the same library, if xml.etree can be imported. *)
Theorem C81_one_library : forall h m m' t t', only_loads h -> standard h ->
  uses (t_run h fresh) m t -> uses (t_run h fresh) m' t' -> t = t'.
Proof.
  intros h m m' t t' Ho Hs H H'.
  assert (K : forall h w, standard h -> (forall m t c, In (m, (t, c)) (tw_loaded w) -> t <> OldEtree) ->
              forall m t c, In (m, (t, c)) (tw_loaded (t_run h w)) -> t <> OldEtree).
  { clear. induction h as [|o h IH]; intros w Hs Hw; [exact Hw|]. cbn [t_run]. apply IH.
    - intros m l Hi. apply (Hs m l). right. exact Hi.
    - destruct o as [m l|b]; [|exact Hw]. cbn [t_step]. destruct (dict_get m (tw_loaded w)); [exact Hw|].
      assert (X : l XmlEtree = Ok tt) by (apply (Hs m l); left; reflexivity).
      assert (Y : import_plain l = Ok XmlEtree) by (unfold import_plain; rewrite X; reflexivity).
      destruct (import_tree l (tw_config w)) as [[t|] c] eqn:E; [|exact Hw]. cbn [tw_loaded].
      intros m' t' c' H. apply set_in in H. destruct H as [H|[-> H]]; [apply (Hw _ _ _ H)|].
      assert (t' = t) as -> by congruence. unfold import_tree in E. rewrite Y in E.
      destruct (tw_config w) as [[]|]; destruct (l Lxml) as [|[]]; cbn in E; congruence. }
  destruct (C81_agree h m m' t t' Ho H H') as [[A1 A2] _]. destruct H as [c H], H' as [c' H'].
  pose proof (K h fresh Hs (fun _ _ _ F => match F with end) _ _ _ H) as N.
  pose proof (K h fresh Hs (fun _ _ _ F => match F with end) _ _ _ H') as N'.
  destruct t, t'; try reflexivity; try congruence; try (discriminate (A1 eq_refl)); discriminate (A2 eq_refl).
Qed.
Example C81_agree_example :
  let h := [TLoad "reader" t_none; TLoad "selector" t_all; TLoad "reader" t_all] in
  only_loads h /\ standard h /\ uses (t_run h fresh) "reader" XmlEtree /\ uses (t_run h fresh) "selector" XmlEtree.
Proof.
  cbv zeta. split; [intros b [H|[H|[H|[]]]]; discriminate|]. split.
  - intros m l [H|[H|[H|[]]]]; inversion H; reflexivity.
  - split; exists (Some false); vm_compute; auto.
Qed.

(** The first module to be loaded decides: lxml if it is there. *)
Theorem C81_first : forall m l h, only_loads h ->
  (l Lxml = Ok tt -> tw_config (t_run (TLoad m l :: h) fresh) = Some true /\
     forall m' t, uses (t_run (TLoad m l :: h) fresh) m' t -> t = Lxml) /\
  (l Lxml <> Ok tt -> tw_config (t_run (TLoad m l :: h) fresh) = Some false /\
     forall m' t, uses (t_run (TLoad m l :: h) fresh) m' t -> t <> Lxml).
Proof.
  intros m l h Ho. destruct (first_settles m l) as [b Hb]. cbn [t_run].
  pose proof (run_settled h b _ Ho Hb) as [S1 S2].
  assert (D : l Lxml = Ok tt <-> b = true).
  { destruct Hb as [Hb _]. cbn [t_step fresh tw_loaded dict_get tw_config import_tree] in Hb.
    destruct (l Lxml) as [[]|e]; [cbn in Hb; split; congruence|].
    split; [discriminate|]. intros ->. destruct e; try discriminate Hb. destruct (import_plain l); discriminate Hb. }
  split; intros H; (split; [rewrite S1; f_equal|intros m' t [c K]; apply (S2 _ _ _ K)]).
  - apply D, H.
  - apply D, H.
  - destruct b; [|reflexivity]. exfalso. apply H, D. reflexivity.
  - destruct b; [|reflexivity]. exfalso. apply H, D. reflexivity.
Qed.

(** A choice made before anything is loaded is respected; without the library it fails rather than take
    another. *)
Theorem C81_chosen : forall b h m t, only_loads h -> uses (t_run (TAssign b :: h) fresh) m t ->
  (b = true <-> t = Lxml).
Proof.
  intros b h m t Ho [c H]. cbn [t_run t_step] in H.
  assert (S : settled b (mkTworld (Some b) [])) by (split; [reflexivity|intros ? ? ? []]).
  destruct (run_settled h b _ Ho S) as [_ S2]. destruct (S2 _ _ _ H) as (_ & A & B).
  destruct b; [split; auto|]. split; [discriminate|]. intros E. destruct (B eq_refl E).
Qed.
Theorem C81_refused : forall l e, l Lxml = Raise e -> import_tree l (Some true) = (Raise e, Some true).
Proof. intros l e H. cbn [import_tree]. rewrite H. reflexivity. Qed.
Example C81_refused_example : t_none Lxml = Raise EImportError.
Proof. reflexivity. Qed.

(** A choice made later leaves modules with different libraries, and Config at odds with them. *)
Theorem C81_late_refuted : exists h m m', uses (t_run h fresh) m Lxml /\ uses (t_run h fresh) m' XmlEtree /\
  tw_config (t_run h fresh) = Some false.
Proof.
  exists [TLoad "reader" t_all; TAssign false; TLoad "selector" t_all], "reader"%string, "selector"%string.
  split; [exists (Some true)|split; [exists (Some false)|reflexivity]]; vm_compute; auto.
Qed.
(** If lxml is there but broken, the first module cannot be loaded; the next ones use xml.etree. *)
Theorem C81_broken : forall m l e m' l', l Lxml = Raise e -> e <> EImportError -> l' XmlEtree = Ok tt ->
  tw_loaded (t_run [TLoad m l; TLoad m' l'] fresh) = [(m', (XmlEtree, Some false))].
Proof.
  intros m l e m' l' H1 H2 H3. assert (P : import_plain l' = Ok XmlEtree) by (unfold import_plain; rewrite H3; reflexivity).
  assert (Q : t_step fresh (TLoad m l) = mkTworld (Some false) []).
  { cbn [t_step fresh tw_loaded dict_get tw_config]. unfold import_tree. rewrite H1. destruct e; congruence. }
  cbn [t_run]. rewrite Q. cbn [t_step tw_loaded dict_get tw_config import_tree]. rewrite P. reflexivity.
Qed.

Print Assumptions C81_agree.
Print Assumptions C81_one_library.
Print Assumptions C81_first.
Print Assumptions C81_chosen.
Print Assumptions C81_refused.
Print Assumptions C81_late_refuted.
Print Assumptions C81_broken.
