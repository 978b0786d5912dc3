(** Lemmas about the choice of the element tree library. *)
From Verif Require Import TreeChoice SpecTreeChoice.

Lemma set_in : forall A k (v : A) d x y, In (x, y) (dict_set k v d) -> In (x, y) d \/ (x = k /\ y = v).
Proof.
  induction d as [|[k' v'] d IH]; intros x y; cbn [dict_set].
  - intros [H|[]]. right. split; congruence.
  - destruct (String.eqb k k') eqn:E; cbn [In]; [apply String.eqb_eq in E|].
    + intros [H|H]; [right; split; congruence|left; right; exact H].
    + intros [H|H]; [left; left; exact H|]. destruct (IH x y H) as [K|K]; [left; right; exact K|right; exact K].
Qed.

Definition settled (b : bool) (w : tworld) : Prop :=
  tw_config w = Some b /\
  forall m t c, In (m, (t, c)) (tw_loaded w) -> c = Some b /\ (b = true -> t = Lxml) /\ (b = false -> t <> Lxml).

Lemma plain_not : forall l t, import_plain l = Ok t -> t <> Lxml.
Proof.
  intros l t. unfold import_plain. destruct (l XmlEtree) as [[]|[]]; try discriminate.
  - intros H. assert (t = XmlEtree) as -> by congruence. discriminate.
  - destruct (l OldEtree); [|discriminate]. cbn. intros H. assert (t = OldEtree) as -> by congruence. discriminate.
Qed.
Lemma import_settles : forall l b r c, import_tree l (Some b) = (r, c) ->
  c = Some b /\ forall t, r = Ok t -> (b = true -> t = Lxml) /\ (b = false -> t <> Lxml).
Proof.
  intros l [] r c; cbn [import_tree]; intros H; (assert (Hc : c = Some _) by (inversion H; reflexivity));
    (split; [exact Hc|]); intros t ->; inversion H as [[E1 E2]]; split; intros X; try discriminate X.
  - destruct (l Lxml); cbn in E1; congruence.
  - eapply plain_not; eauto.
Qed.
Lemma step_settled : forall b w m l, settled b w -> settled b (t_step w (TLoad m l)).
Proof.
  intros b w m l [H1 H2]. cbn [t_step]. destruct (dict_get m (tw_loaded w)); [split; assumption|].
  rewrite H1. destruct (import_tree l (Some b)) as [r c] eqn:E. apply import_settles in E. destruct E as [-> E].
  destruct r as [t|]; [|split; [reflexivity|exact H2]]. split; [reflexivity|].
  intros m' t' c' H. apply set_in in H. destruct H as [H|[-> H]]; [apply (H2 _ _ _ H)|].
  assert (t' = t /\ c' = Some b) as [-> ->] by (split; congruence). split; [reflexivity|]. apply E. reflexivity.
Qed.
Lemma run_settled : forall h b w, only_loads h -> settled b w -> settled b (t_run h w).
Proof.
  induction h as [|o h IH]; intros b w Ho Hs; [exact Hs|]. cbn [t_run].
  apply IH; [intros x Hx; apply (Ho x); right; exact Hx|].
  destruct o as [m l|x]; [apply step_settled, Hs|]. exfalso. apply (Ho x). left. reflexivity.
Qed.
Lemma first_settles : forall m l, exists b, settled b (t_step fresh (TLoad m l)).
Proof.
  intros m l. cbn [t_step fresh tw_loaded dict_get tw_config import_tree].
  destruct (l Lxml) as [u|e].
  - exists true. split; [reflexivity|]. intros m' t c [H|[]]. inversion H. repeat split; congruence.
  - exists false. destruct e; try (split; [reflexivity|intros m' t c []]).
    destruct (import_plain l) as [t|] eqn:E; split; try reflexivity; [|intros m' t c []].
    intros m' t' c [H|[]]. inversion H. subst. split; [reflexivity|]. split; [discriminate|].
    intros _. eapply plain_not; eauto.
Qed.
