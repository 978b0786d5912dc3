(** Facts about reading policies into objects: what objects stand for when others are
    hidden, and the statements of the readers. *)
From Verif Require Import SpecReadObjects ObjectsFacts ObjectsFacts2 ObjectsFacts3 FuncMapFacts.
From Coq Require Import Lia.

(** ** Heaps with holes *)

Definition hole : pobject := PEffect "".
Definition hsub (h h' : heap) : Prop :=
  forall a o, nth_error h a = Some o -> o <> hole -> nth_error h' a = Some o.

Section Mono.
Variables h h' : heap.
Hypothesis S : hsub h h'.

Lemma mono_inst : forall a c attrs, nth_error h a = Some (PInst c attrs) ->
  nth_error h' a = Some (PInst c attrs).
Proof. intros a c attrs N. apply S; [exact N | discriminate]. Qed.
Lemma mono_list : forall a t items, nth_error h a = Some (PTypedList t items) ->
  nth_error h' a = Some (PTypedList t items).
Proof. intros a t items N. apply S; [exact N | discriminate]. Qed.
Lemma mono_get : forall v c a name, instance h v c a -> get_attr h' a name = get_attr h a name.
Proof.
  intros v c a name (_ & attrs & N). unfold get_attr. rewrite N, (mono_inst _ _ _ N). reflexivity.
Qed.
Lemma instance_mono : forall v c a, instance h v c a -> instance h' v c a.
Proof. intros v c a (-> & attrs & N). split; [reflexivity|]. exists attrs. apply mono_inst; exact N. Qed.
Lemma attr_mono : forall v c a name (P P' : pval -> Prop), instance h v c a ->
  (forall v, P v -> P' v) -> attr_is h a name P -> attr_is h' a name P'.
Proof.
  intros v c a name P P' I K (w & G & Pw). exists w.
  split; [rewrite (mono_get _ _ _ _ I); exact G | auto].
Qed.
Lemma listing_mono : forall X (R R' : pval -> X -> Prop) xs v,
  (forall v x, R v x -> R' v x) -> listing h (Forall2 R) xs v -> listing h' (Forall2 R') xs v.
Proof.
  intros X R R' xs v K (l & t & items & -> & N & F). exists l, t, items. split; [reflexivity|].
  split; [apply mono_list; exact N|]. clear N. induction F; constructor; auto.
Qed.

Ltac am := eapply attr_mono; [eassumption | | eassumption]; intros ? ?; try eassumption.

Lemma value_mono : forall v x, for_value h v x -> for_value h' v x.
Proof. intros v x (a & -> & N). exists a; split; [reflexivity | apply S; [exact N | discriminate]]. Qed.
Lemma effect_mono : forall v x, for_effect h v x -> for_effect h' v x.
Proof.
  intros v x (a & -> & N). exists a; split; [reflexivity | apply S; [exact N | destruct x; discriminate]].
Qed.
Lemma designator_mono : forall v x, for_designator h v x -> for_designator h' v x.
Proof.
  intros v x (a & I & A1 & A2 & A3 & A4). exists a. split; [apply instance_mono; exact I|].
  repeat match goal with |- _ /\ _ => split end; am.
Qed.
Lemma selector_mono : forall v x, for_selector h v x -> for_selector h' v x.
Proof.
  intros v x (a & I & A1 & A2 & A3). exists a. split; [apply instance_mono; exact I|].
  repeat match goal with |- _ /\ _ => split end; am.
Qed.
Lemma expr_mono : forall v x, for_expr h v x -> for_expr h' v x.
Proof.
  refine (for_expr_ind2 h (fun v x _ => for_expr h' v x)
            (fun vs xs _ => for_exprs h' vs xs) _ _ _ _ _ _).
  - intros v x F. constructor. apply value_mono; assumption.
  - intros v x F. constructor. apply designator_mono; assumption.
  - intros v x F. constructor. apply selector_mono; assumption.
  - intros v a fid f l t items args I A1 A2 G N _ IH.
    eapply fe_apply with (a := a) (l := l) (t := t) (items := items).
    + apply instance_mono; exact I.
    + am.
    + am.
    + rewrite (mono_get _ _ _ _ I); exact G.
    + apply mono_list; exact N.
    + exact IH.
  - constructor.
  - intros v x vs xs _ IH1 _ IH2. constructor; assumption.
Qed.
Lemma match_mono : forall k v x, for_match h k v x -> for_match h' k v x.
Proof.
  intros k v x (a & I & A1 & A2 & A3 & A4 & A5). exists a. split; [apply instance_mono; exact I|].
  repeat match goal with |- _ /\ _ => split end; am; (eapply maybe_local; [|eassumption]); intros y;
    [apply value_mono | apply designator_mono | apply selector_mono].
Qed.
Lemma child_mono : forall k v x, for_child h k v x -> for_child h' k v x.
Proof.
  intros k v x (a & I & A1). exists a. split; [apply instance_mono; exact I|]. am.
  eapply listing_mono; [|eassumption]. intros w y. apply match_mono.
Qed.
Lemma target_mono : forall v x, for_target h v x -> for_target h' v x.
Proof.
  intros v x (a & I & A1 & A2 & A3 & A4). exists a. split; [apply instance_mono; exact I|].
  repeat match goal with |- _ /\ _ => split end; am;
    (eapply listing_mono; [|eassumption]; intros w y; apply child_mono).
Qed.
Lemma condition_mono : forall v x, for_condition h v x -> for_condition h' v x.
Proof.
  intros v x (a & I & A1). exists a. split; [apply instance_mono; exact I|]. am.
  eapply maybe_local; [|eassumption]. intros y; apply expr_mono.
Qed.
Lemma rule_mono : forall v x, for_rule h v x -> for_rule h' v x.
Proof.
  intros v x (a & I & A1 & A2 & A3 & A4 & A5). exists a. split; [apply instance_mono; exact I|].
  split; [am|]. split; [am; eapply maybe_local; [|eassumption]; intros y; apply effect_mono|].
  split; [am; eapply maybe_local; [|eassumption]; intros y; apply target_mono|].
  split; [am; eapply maybe_local; [|eassumption]; intros y; apply condition_mono|].
  rewrite (mono_get _ _ _ _ I); assumption.
Qed.
Lemma defaults_mono : forall x v, for_defaults h x v -> for_defaults h' x v.
Proof.
  intros x v [[-> ->]|(a & I & A1)]; [left; auto|]. right.
  exists a. split; [apply instance_mono; exact I | am].
Qed.
Lemma policy_mono : forall v x, for_policy h v x -> for_policy h' v x.
Proof.
  refine (for_policy_ind2 h (fun v x _ => for_policy h' v x)
            (fun vs xs _ => for_policies h' vs xs) _ _ _ _).
  - intros v a m t alg rs I A1 A2 A3 A4 A5 A6 A7 A8.
    eapply fp_policy with (a := a); [apply instance_mono; exact I | am | am | am | am | | | am |].
    + am. apply defaults_mono; assumption.
    + am. eapply maybe_local; [|eassumption]; intros y; apply target_mono.
    + am. eapply listing_mono; [|eassumption]. intros w y; apply rule_mono.
  - intros v a m t alg l ty items ch I A1 A2 A3 A4 A5 A6 A7 A8 A9 _ IH.
    eapply fp_policyset with (a := a) (l := l) (ty := ty) (items := items);
      [apply instance_mono; exact I | am | am | am | am | | | am | | |].
    + am. apply defaults_mono; assumption.
    + am. eapply maybe_local; [|eassumption]; intros y; apply target_mono.
    + rewrite (mono_get _ _ _ _ I); exact A8.
    + apply mono_list; exact A9.
    + exact IH.
  - constructor.
  - intros v x vs xs _ IH1 _ IH2. constructor; assumption.
Qed.
End Mono.

(** Hiding some addresses *)
Fixpoint hide_from (i : nat) (U : nat -> bool) (h : heap) : heap :=
  match h with
  | [] => []
  | o :: h' => (if U i then hole else o) :: hide_from (S i) U h'
  end.
Definition hide : (nat -> bool) -> heap -> heap := hide_from 0.
(** Only the objects from [n] on *)
Definition fresh (n : nat) : heap -> heap := hide (fun a => Nat.ltb a n).

Lemma hide_from_nth : forall h i U a,
  nth_error (hide_from i U h) a = option_map (fun o => if U (i + a) then hole else o) (nth_error h a).
Proof.
  induction h as [|o h IH]; intros i U [|a]; cbn; try reflexivity.
  - rewrite Nat.add_0_r. reflexivity.
  - rewrite IH. replace (S i + a) with (i + S a) by lia. reflexivity.
Qed.
Lemma hide_nth : forall U h a,
  nth_error (hide U h) a = option_map (fun o => if U a then hole else o) (nth_error h a).
Proof. intros. apply (hide_from_nth h 0 U a). Qed.
Lemma hide_some : forall U h a o, U a = false -> nth_error h a = Some o -> nth_error (hide U h) a = Some o.
Proof. intros U h a o HU N. rewrite hide_nth, N. cbn. rewrite HU. reflexivity. Qed.
Lemma hide_inv : forall U h a o, nth_error (hide U h) a = Some o -> o <> hole ->
  U a = false /\ nth_error h a = Some o.
Proof.
  intros U h a o N D. rewrite hide_nth in N. destruct (nth_error h a) as [x|]; [|discriminate].
  cbn in N. destruct (U a); inversion N; subst; [congruence|auto].
Qed.
Lemma hide_hsub : forall U U' h h',
  (forall a o, U a = false -> nth_error h a = Some o -> U' a = false /\ nth_error h' a = Some o) ->
  hsub (hide U h) (hide U' h').
Proof.
  intros U U' h h' K a o N D. destruct (hide_inv _ _ _ _ N D) as [HU N'].
  destruct (K a o HU N') as [HU' N'']. apply hide_some; assumption.
Qed.
Lemma hide_hsub_all : forall U h, hsub (hide U h) h.
Proof. intros U h a o N D. apply (hide_inv _ _ _ _ N D). Qed.
Lemma fresh_some : forall n h a o, n <= a -> nth_error h a = Some o -> nth_error (fresh n h) a = Some o.
Proof. intros n h a o L N. apply hide_some; [apply Nat.ltb_ge; exact L | exact N]. Qed.
Lemma fresh_hsub : forall n n' h h', n' <= n -> untouched h h' -> hsub (fresh n h) (fresh n' h').
Proof.
  intros n n' h h' L U. apply hide_hsub. intros a o HU N. apply Nat.ltb_ge in HU.
  split; [apply Nat.ltb_ge; lia | apply U; exact N].
Qed.
Lemma hide_replace : forall U a o h, U a = true -> hide U (replace_nth a o h) = hide U h.
Proof.
  intros U a o h. unfold hide. replace a with (0 + a) at 1 by lia. generalize 0 as i.
  revert a. induction h as [|x h IH]; intros [|a] i HU; cbn; try reflexivity.
  - rewrite Nat.add_0_r in HU. rewrite HU. reflexivity.
  - rewrite IH; [reflexivity|]. replace (S i + a) with (i + S a) by lia. exact HU.
Qed.
Lemma fresh_replace : forall n a o h, a < n -> fresh n (replace_nth a o h) = fresh n h.
Proof. intros n a o h L. apply hide_replace. apply Nat.ltb_lt; exact L. Qed.

Lemma untouched_refl : forall h, untouched h h.
Proof. intros h a o N; exact N. Qed.
Lemma untouched_trans : forall a b c, untouched a b -> untouched b c -> untouched a c.
Proof. intros a b c U V x o N. apply V, U, N. Qed.
Lemma untouched_length : forall h h', untouched h h' -> length h <= length h'.
Proof.
  intros h h' U. destruct (Nat.le_gt_cases (length h) (length h')) as [L|L]; [exact L|].
  destruct (nth_error h (length h')) as [o|] eqn:N.
  - apply U in N. apply nth_error_Some_length in N || (assert (length h' < length h') by
      (apply nth_error_Some; congruence); lia).
  - apply nth_error_None in N. lia.
Qed.
Lemma untouched_app : forall h l, untouched h (h ++ l).
Proof.
  intros h l a o N. rewrite nth_error_app1; [exact N|]. apply nth_error_Some. congruence.
Qed.
Lemma untouched_replace : forall h0 h a o, untouched h0 h -> length h0 <= a ->
  untouched h0 (replace_nth a o h).
Proof.
  intros h0 h a o U L b x N. rewrite nth_replace_other; [apply U; exact N|].
  intros ->. assert (b < length h0) by (apply nth_error_Some; congruence). lia.
Qed.

(** ** Outcomes *)

Definition out {A X} (K : lstate -> Prop) (R : A -> X -> lstate -> Prop)
  (p : res A * lstate) (r : res X) : Prop :=
  K (snd p) /\
  match r with
  | Ok x => exists v, fst p = Ok v /\ R v x (snd p)
  | Raise e => fst p = Raise e
  end.

Lemma out_bind : forall A B X Y (K : lstate -> Prop) (R : A -> X -> lstate -> Prop) (R' : B -> Y -> lstate -> Prop)
  (m : lm A) (k : A -> lm B) (r : res X) (f : X -> res Y) s,
  out K R (m s) r ->
  (forall v x s', K s' -> R v x s' -> out K R' (k v s') (f x)) ->
  out K R' (bind_l m k s) (bind r f).
Proof.
  intros A B X Y K R R' m k r f s [HK H] C. unfold bind_l. destruct (m s) as [o s']. cbn [fst snd] in *.
  destruct r as [x|e].
  - destruct H as (v & -> & HR). cbn [bind]. apply C; assumption.
  - rewrite H. cbn [bind]. split; [exact HK | reflexivity].
Qed.
(** a step that only one side has *)
Lemma out_step : forall A B Y (K : lstate -> Prop) (R' : B -> Y -> lstate -> Prop) (m : lm A) (k : A -> lm B) (r : res Y) s v s',
  m s = (Ok v, s') -> out K R' (k v s') r -> out K R' (bind_l m k s) r.
Proof. intros A B Y K R' m k r s v s' E C. unfold bind_l. rewrite E. exact C. Qed.
Lemma out_ok : forall A X (K : lstate -> Prop) (R : A -> X -> lstate -> Prop) v x s, K s -> R v x s -> out K R (Ok v, s) (Ok x).
Proof. intros. split; [assumption|]. exists v; auto. Qed.
Lemma out_raise : forall A X (K : lstate -> Prop) (R : A -> X -> lstate -> Prop) e s, K s -> out K R (Raise e, s) (Raise e).
Proof. intros. split; [assumption | reflexivity]. Qed.
Lemma out_weaken : forall A X (K K' : lstate -> Prop) (R R' : A -> X -> lstate -> Prop) p r,
  out K R p r -> (forall s, K s -> K' s) -> (forall v x s, K s -> R v x s -> R' v x s) -> out K' R' p r.
Proof.
  intros A X K K' R R' p r [HK H] W WR. split; [auto|]. destruct r; [|exact H].
  destruct H as (v & E & HR). exists v; auto.
Qed.
(** computations that both sides share *)
Lemma out_lift : forall A B Y (K : lstate -> Prop) (R' : B -> Y -> lstate -> Prop) (r : res A) (k : A -> lm B) (f : A -> res Y) s,
  K s -> (forall x, r = Ok x -> out K R' (k x s) (f x)) -> out K R' (bind_l (lift_l r) k s) (bind r f).
Proof.
  intros A B Y K R' [x|e] k f s HK C; unfold bind_l, lift_l; cbn [bind]; [auto|].
  apply out_raise; exact HK.
Qed.

Lemma each_out : forall X (K : lstate -> Prop) (I : X -> lstate -> Prop) (f : node -> lm unit)
  (g : X -> node -> res X) ks,
  (forall x s, I x s -> K s) ->
  (forall k x s, In k ks -> I x s -> out K (fun _ x' s' => I x' s') (f k s) (g x k)) ->
  forall x s, I x s -> out K (fun _ x' s' => I x' s') (each_l f ks s) (foldM g ks x).
Proof.
  intros X K I f g ks HK. induction ks as [|k ks IH]; intros St x s HI; cbn.
  - apply out_ok; eauto.
  - eapply out_bind; [apply St; [left; reflexivity | exact HI]|].
    intros [] x' s' _ HI'. apply IH; [|exact HI']. intros k' x'' s'' J. apply St; right; exact J.
Qed.
