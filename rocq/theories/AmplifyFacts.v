(** Lemmas for C93. *)
From Coq Require Import Lia.
From Verif Require Import Readers EvalState SpecEval SpecState SpecAmplify.
From Verif Require Import EvalFacts ReadFacts ReadFacts2 ReadFacts3 ReadFacts4.

Definition sum_sizes (l : list node) : nat := list_sum (map size_of l).
Definition cnt (l : list designator) : nat := length (filter about_subjects l).

Lemma ls_cons : forall a l, list_sum (a :: l) = a + list_sum l.
Proof. reflexivity. Qed.
Lemma cnt_app : forall a b, cnt (a ++ b) = cnt a + cnt b.
Proof. intros. unfold cnt. rewrite filter_app, app_length. reflexivity. Qed.
Lemma cnt_flat : forall A (f : A -> list designator) l,
  cnt (flat_map f l) = list_sum (map (fun a => cnt (f a)) l).
Proof. intros A f l. induction l as [|a l IH]; [reflexivity|]. cbn [flat_map map]. rewrite cnt_app, IH. reflexivity. Qed.

Lemma size_elem : forall n, is_elem n -> size_of n = S (sum_sizes (elems n)).
Proof.
  intros [tag a t ks|t] H; [|destruct H]. cbn [size_of elems]. f_equal. unfold sum_sizes.
  induction ks as [|[tg aa tt kk|c] ks IH]; [reflexivity| |]; cbn [filter map] in *; rewrite !ls_cons, IH; reflexivity.
Qed.
Lemma size_pos : forall n, is_elem n -> 1 <= size_of n.
Proof. intros n H. rewrite size_elem by exact H. lia. Qed.

Lemma sum_in : forall x l, In x l -> size_of x <= sum_sizes l.
Proof.
  intros x l H. unfold sum_sizes. induction l as [|y l IH]; [destruct H|].
  cbn [map]. rewrite ls_cons. destruct H as [->|H]; [lia|]. specialize (IH H). lia.
Qed.

(** Two or three kinds of children that exclude each other. *)
Lemma sum_two : forall (f g : node -> bool) l, (forall x, f x = true -> g x = true -> False) ->
  sum_sizes (filter f l) + sum_sizes (filter g l) <= sum_sizes l.
Proof.
  intros f g l H. unfold sum_sizes. induction l as [|x l IH]; [cbn; lia|]. cbn [filter].
  destruct (f x) eqn:F, (g x) eqn:G; [destruct (H x F G)| | |]; cbn [map] in *; rewrite ?ls_cons in *; lia.
Qed.
Lemma sum_one : forall (f : node -> bool) l, sum_sizes (filter f l) <= sum_sizes l.
Proof.
  intros f l. unfold sum_sizes. induction l as [|x l IH]; [cbn; lia|]. cbn [filter].
  destruct (f x); cbn [map] in *; rewrite ?ls_cons in *; lia.
Qed.

Lemma sum_flat_elems : forall l, Forall is_elem l -> sum_sizes (flat_map elems l) <= sum_sizes l.
Proof.
  intros l H. induction H as [|x l Hx H IH]; [cbn; lia|]. cbn [flat_map]. unfold sum_sizes in *.
  rewrite map_app, list_sum_app. cbn [map]. rewrite ls_cons, (size_elem x Hx). unfold sum_sizes in *. lia.
Qed.

Lemma sum_forall2 : forall A (R : node -> A -> Prop) (w : A -> nat) l l',
  (forall x a, In x l -> R x a -> w a <= size_of x) -> Forall2 R l l' -> list_sum (map w l') <= sum_sizes l.
Proof.
  intros A R w l l' H F. unfold sum_sizes. induction F as [|x a l l' Hx F IH]; [cbn; lia|].
  cbn [map]. rewrite !ls_cons. pose proof (H x a (or_introl eq_refl) Hx).
  assert (list_sum (map w l') <= list_sum (map size_of l)) as I by (apply IH; intros; apply H; [right|]; assumption).
  lia.
Qed.

Lemma called_both : forall a b n, has_char close_brace a = false -> has_char close_brace b = false ->
  called a n = true -> called b n = true -> a = b.
Proof.
  intros a b n Ha Hb A B. pose proof (called_elem _ _ A) as He.
  rewrite called_ln in A by assumption. rewrite called_ln in B by assumption.
  apply String.eqb_eq in A, B. congruence.
Qed.

Lemma called_forall : forall s n, Forall is_elem (elems_called s n).
Proof. intros s n. apply Forall_forall. intros x H. apply filter_In in H. exact (called_elem _ _ (proj2 H)). Qed.
Lemma elems_forall : forall n, Forall is_elem (elems n).
Proof. intros n. apply Forall_forall. intros x H. exact (elems_is n x H). Qed.

Lemma last_in : forall A (means : node -> A -> Prop) l a, last_one means l (Some a) -> exists k, In k l /\ means k a.
Proof.
  intros A means l a [_ H]. destruct (rev l) as [|k r] eqn:E; [discriminate H|]. destruct H as (b & [= <-] & H).
  exists k. split; [apply in_rev; rewrite E; left; reflexivity|exact H].
Qed.

Section Cost.
Variable E : renv.

Lemma match_cost : forall k n m, match_doc E k n m -> cnt (designators_match m) <= size_of n.
Proof.
  intros k n m (_ & Hc & _ & _ & _ & _ & Hd & _). unfold designators_match.
  destruct (mt_designator m) as [d|]; [|cbn; lia].
  pose proof (size_pos n (called_elem _ _ Hc)). unfold cnt. cbn [filter]. destruct (about_subjects d); cbn [Datatypes.length]; lia.
Qed.
Lemma match_other : forall k n m, k <> DSubject -> match_doc E k n m -> cnt (designators_match m) = 0.
Proof.
  intros k n m Hk (_ & Hc & _ & _ & _ & _ & Hd & _). unfold designators_match.
  destruct (mt_designator m) as [d|]; [|reflexivity].
  destruct (last_in _ _ _ _ Hd) as (x & _ & _ & Hx). unfold cnt, about_subjects. cbn [filter]. rewrite Hx.
  destruct k; [contradiction| | |]; reflexivity.
Qed.

Lemma child_cost : forall k n ms, child_doc E k n ms -> cnt (flat_map designators_match ms) <= size_of n.
Proof.
  intros k n ms [Hc F]. rewrite cnt_flat, size_elem by exact (called_elem _ _ Hc).
  pose proof (sum_forall2 _ _ (fun a => cnt (designators_match a)) _ _ (fun x a _ => match_cost k x a) F). lia.
Qed.
Lemma child_other : forall k n ms, k <> DSubject -> child_doc E k n ms -> cnt (flat_map designators_match ms) = 0.
Proof.
  intros k n ms Hk [Hc F]. induction F as [|x a l l' Hx F IH]; [reflexivity|].
  cbn [flat_map]. rewrite cnt_app, IH, (match_other k x a Hk Hx). reflexivity.
Qed.

Lemma target_cost : forall n t, target_doc E n t -> cnt (designators_target (Some t)) <= sum_sizes (elems n).
Proof.
  intros n t (_ & _ & H). unfold designators_target, target_matches.
  assert (A : forall k, k <> DSubject -> cnt (flat_map designators_match (concat (target_part k t))) = 0).
  { intros k Hk. specialize (H k). induction H as [|x a l l' Hx F IH]; [reflexivity|].
    cbn [concat]. rewrite flat_map_app, cnt_app, IH, (child_other k x a Hk Hx). reflexivity. }
  assert (B : cnt (flat_map designators_match (concat (target_part DSubject t))) <= sum_sizes (elems n)).
  { specialize (H DSubject).
    pose proof (sum_forall2 _ _ (fun a => cnt (flat_map designators_match a)) _ _ (fun x a _ => child_cost DSubject x a) H) as S.
    pose proof (sum_flat_elems _ (called_forall (container_tag DSubject) n)) as S2.
    pose proof (sum_one (called (container_tag DSubject)) (elems n)) as S3. fold (elems_called (container_tag DSubject) n) in S3.
    rewrite <- (cnt_flat _ (fun a => flat_map designators_match a)) in S.
    assert (Q : forall l, flat_map (fun a => flat_map designators_match a) l = flat_map designators_match (concat l)).
    { induction l as [|y l IH]; [reflexivity|]. cbn [flat_map concat]. rewrite flat_map_app, IH. reflexivity. }
    rewrite Q in S. lia. }
  pose proof (A DResource ltac:(discriminate)) as A1. pose proof (A DAction ltac:(discriminate)) as A2.
  pose proof (A DEnvironment ltac:(discriminate)) as A3. cbn [target_part] in *.
  rewrite ?concat_app, ?flat_map_app, ?cnt_app in *. lia.
Qed.

Lemma expr_cost : forall e n, expr_doc E n e -> cnt (designators_expr e) <= size_of n.
Proof.
  induction e as [v|d|sl|id f args IH] using ReadFacts2.expr_ind'; intros n H; inversion H; subst; cbn [designators_expr].
  - cbn. lia.
  - assert (He : is_elem n) by (match goal with D : designator_doc _ _ |- _ => exact (called_elem _ _ (proj1 D)) end). pose proof (size_pos n He).
    unfold cnt. cbn [filter]. destruct (about_subjects d); cbn [Datatypes.length]; lia.
  - cbn. lia.
  - rewrite cnt_flat, size_elem by (eapply called_elem; eassumption).
    match goal with F : Forall2 _ _ args |- _ => revert F end. generalize (elems n). clear - IH.
    intros l F. enough (list_sum (map (fun a => cnt (designators_expr a)) args) <= sum_sizes l) by lia.
    unfold sum_sizes. induction F as [|x a l l' Hx F IHF]; [cbn; lia|]. inversion IH; subst.
    cbn [map]. rewrite !ls_cons.
    match goal with A : forall n, _ -> _ <= _, B : Forall _ l' |- _ => specialize (IHF B); specialize (A x Hx) end. lia.
Qed.

Lemma otarget_cost : forall n t, last_one (target_doc E) (elems_called "Target" n) t ->
  cnt (designators_target t) <= sum_sizes (elems_called "Target" n).
Proof.
  intros n [t|] H; [|cbn; lia]. destruct (last_in _ _ _ _ H) as (k & Hk & Ht).
  pose proof (target_cost k t Ht). pose proof (sum_in k _ Hk).
  rewrite (size_elem k) in H1 by (exact (called_elem _ _ (proj1 Ht))). lia.
Qed.

Lemma rule_cost : forall n r, rule_doc E n r -> cnt (designators_rule r) <= size_of n.
Proof.
  intros n r (Hc & _ & _ & Ht & (c & Hcond & Er) & _). unfold designators_rule. rewrite cnt_app.
  rewrite size_elem by exact (called_elem _ _ Hc).
  pose proof (otarget_cost n _ Ht) as A.
  assert (B : cnt (match rl_condition r with Some (Some x) => designators_expr x | _ => [] end)
              <= sum_sizes (elems_called "Condition" n)).
  { rewrite Er. destruct c as [e|]; cbn [option_map]; [|cbn; lia].
    destruct (last_in _ _ _ _ Hcond) as (k & Hk & Hkc & x & Ex & _ & Hx).
    pose proof (sum_in k _ Hk) as S. rewrite (size_elem k) in S by exact (called_elem _ _ Hkc).
    pose proof (expr_cost e x Hx). pose proof (sum_in x (elems k)) as S2. rewrite Ex in S2 at 1.
    specialize (S2 (or_introl eq_refl)). lia. }
  pose proof (sum_two (called "Target") (called "Condition") (elems n)) as S.
  specialize (S (fun x X Y => ltac:(discriminate (called_both "Target" "Condition" x eq_refl eq_refl X Y)))).
  unfold elems_called in *. lia.
Qed.

Lemma policy_cost : forall n p, policy_doc E n p -> occurrences p + cnt (designators_policy p) <= size_of n.
Proof.
  intros n p (Hc & _ & id & ai & alg & de & xp & t & rules & -> & _ & _ & _ & _ & _ & Ht & HR & _).
  cbn [designators_policy occurrences]. unfold occurrences. cbn [all_policies Datatypes.length].
  rewrite cnt_app, cnt_flat, size_elem by exact (called_elem _ _ Hc).
  pose proof (otarget_cost n _ Ht) as A.
  pose proof (sum_forall2 _ _ (fun a => cnt (designators_rule a)) _ _ (fun x a _ => rule_cost x a) HR) as B.
  pose proof (sum_two (called "Target") (called "Rule") (elems n)) as S.
  specialize (S (fun x X Y => ltac:(discriminate (called_both "Target" "Rule" x eq_refl eq_refl X Y)))).
  unfold elems_called in *. lia.
Qed.
End Cost.

(** ** Sets *)
Definition weight (p : policybase) : nat := occurrences p + cnt (designators_policy p).
Definition weights (ps : list policybase) : nat := list_sum (map weight ps).

Lemma weight_set : forall m t alg ps,
  weight (PPolicySet m t alg ps) = 1 + cnt (designators_target t) + weights ps.
Proof.
  intros. unfold weights, weight, occurrences. cbn [all_policies designators_policy].
  rewrite app_length, cnt_app, cnt_flat. cbn [Datatypes.length].
  assert (length (flat_map all_policies ps) + list_sum (map (fun a => cnt (designators_policy a)) ps)
          = list_sum (map (fun p => length (all_policies p) + cnt (designators_policy p)) ps)) as Q.
  { induction ps as [|p ps IH]; [reflexivity|]. cbn [flat_map map]. rewrite app_length, !ls_cons. lia. }
  rewrite <- Q. lia.
Qed.

Lemma set_parts : forall n, sum_sizes (elems_called "Target" n) + sum_sizes (members n) <= sum_sizes (elems n).
Proof.
  intros n. apply sum_two. intros x X Y. rewrite !Bool.orb_true_iff in Y.
  destruct Y as [[[Y|Y]|Y]|Y]; pose proof (fun A B => called_both _ _ x A B X Y) as D; specialize (D eq_refl eq_refl); discriminate D.
Qed.
Lemma members_elem : forall n k, In k (members n) -> is_elem k.
Proof. intros n k H. apply filter_In in H. exact (elems_is n k (proj1 H)). Qed.

(** *** Without references *)
Lemma inside_member : forall n k m, In k (members n) -> inside m k -> inside m n.
Proof. intros n k m Hk Hm. apply inside_kid with k; [|exact Hm]. apply filter_In in Hk. apply Hk. Qed.

Section Reads.
Variable E : renv.
Variable fetch : string -> res node.
Variable fd : finder.

Lemma plain_mut :
  (forall n K K' U p, reads E fetch fd n K K' U p -> without_references n -> weight p <= size_of n) /\
 (forall ks K K' U ps, reads_members E fetch fd ks K K' U ps ->
     (forall k, In k ks -> without_references k) -> weights ps <= sum_sizes ks) /\
 (forall k K K' U p, reads_member E fetch fd k K K' U p -> without_references k -> weight p <= size_of k).
Proof.
  apply reads_mutind.
  - intros n K p Hp _ _. exact (policy_cost E n p Hp).
  - intros n K K' U id ai alg de t ps p Hc _ _ _ _ _ Ht _ IH -> _ W. rewrite weight_set.
    rewrite size_elem by exact (called_elem _ _ Hc). pose proof (otarget_cost E n t Ht). pose proof (set_parts n).
    assert (weights ps <= sum_sizes (members n)); [|lia].
    apply IH. intros k Hk m Hm. apply W. exact (inside_member n k m Hk Hm).
  - intros K _. cbn. lia.
  - intros k ks K K1 K2 U1 U2 p ps _ H1 _ H2 W. unfold weights, sum_sizes in *. cbn [map]. rewrite !ls_cons.
    pose proof (H1 (W k (or_introl eq_refl))). assert (forall k, In k ks -> without_references k) as W' by (intros; apply W; right; assumption).
    specialize (H2 W'). lia.
  - intros k K K' U p _ _ IH. exact IH.
  - intros k K p Hw _ W. rewrite (W k (inside_self k)) in Hw. discriminate Hw.
  - intros base k r url d K K' U q p _ _ Hw _ _ _ _ _ _ W. rewrite (W k (inside_self k)) in Hw. discriminate Hw.
Qed.

(** *** With references *)
Definition below (M : nat) (K : list policybase) : Prop := forall q, In q K -> weight q <= M.

Lemma pow_pos : forall e, 1 <= 2 ^ e.
Proof. intros e. pose proof (Nat.pow_nonzero 2 e). lia. Qed.

Lemma size_at_app : forall a b, size_at fetch (a ++ b) = size_at fetch a + size_at fetch b.
Proof. intros. unfold size_at. rewrite map_app, list_sum_app. reflexivity. Qed.

Lemma pow_more : forall t, 1 + t <= 2 ^ t.
Proof. induction t as [|t IH]; [cbn; lia|]. cbn [Nat.pow]. lia. Qed.

Lemma bound_mut :
  (forall n K K' U p, reads E fetch fd n K K' U p -> forall M, 1 <= M -> below M K ->
     S (weight p) <= M * 2 ^ (size_of n + size_at fetch U) /\ below (M * 2 ^ (size_of n + size_at fetch U)) K') /\
 (forall ks K K' U ps, reads_members E fetch fd ks K K' U ps -> Forall is_elem ks -> forall M, 1 <= M -> below M K ->
     weights ps + 2 * M <= 2 * M * 2 ^ (sum_sizes ks + size_at fetch U) /\ below (M * 2 ^ (sum_sizes ks + size_at fetch U)) K') /\
 (forall k K K' U p, reads_member E fetch fd k K K' U p -> is_elem k -> forall M, 1 <= M -> below M K ->
     S (weight p) <= M * 2 ^ (size_of k + size_at fetch U) /\ below (M * 2 ^ (size_of k + size_at fetch U)) K').
Proof.
  apply reads_mutind.
  - intros n K p Hp _ M HM HK. pose proof (policy_cost E n p Hp) as C. fold (weight p) in C. rewrite Nat.add_0_r.
    pose proof (pow_more (size_of n)).
    assert (S (weight p) <= M * 2 ^ size_of n) as B by nia.
    split; [exact B|]. intros q Hq. apply in_app_or in Hq. destruct Hq as [Hq|[<-|[]]]; [|lia].
    specialize (HK q Hq). pose proof (pow_pos (size_of n)). nia.
  - intros n K K' U id ai alg de t ps p Hc _ _ _ _ _ Ht _ IH -> _ M HM HK.
    assert (Hf : Forall is_elem (members n)) by (apply Forall_forall; intros x; apply members_elem).
    destruct (IH Hf M HM HK) as [B B']. rewrite weight_set.
    pose proof (otarget_cost E n t Ht) as T. pose proof (set_parts n) as P.
    set (e' := sum_sizes (members n) + size_at fetch U) in *. set (tt := cnt (designators_target t)) in *.
    assert (L : 1 + tt + e' <= size_of n + size_at fetch U).
    { rewrite size_elem by exact (called_elem _ _ Hc). unfold e'. lia. }
    assert (Pw : 2 * 2 ^ tt * 2 ^ e' <= 2 ^ (size_of n + size_at fetch U)).
    { replace (2 * 2 ^ tt) with (2 ^ (1 + tt)) by reflexivity. rewrite <- Nat.pow_add_r. apply Nat.pow_le_mono_r; lia. }
    pose proof (pow_more tt) as G. pose proof (pow_pos e') as Q.
    set (P2 := 2 ^ (size_of n + size_at fetch U)) in *.
    assert (R : S (1 + tt + weights ps) <= M * P2).
    { assert (2 * 2 ^ tt * 2 ^ e' >= 2 * (1 + tt) * 2 ^ e') by nia.
      assert (M * P2 >= M * (2 * (1 + tt) * 2 ^ e')) by nia.
      assert (M * (2 * (1 + tt) * 2 ^ e') = 2 * M * 2 ^ e' + 2 * M * 2 ^ e' * tt) by ring.
      assert (2 * M * 2 ^ e' * tt >= tt) by nia. lia. }
    split; [exact R|]. intros q Hq. apply in_app_or in Hq. destruct Hq as [Hq|[<-|[]]].
    + specialize (B' q Hq). pose proof (pow_pos tt). assert (2 ^ e' <= P2) by nia. nia.
    + rewrite weight_set. fold tt. lia.
  - intros K _ M HM HK. cbn. rewrite !Nat.mul_1_r. split; [lia|exact HK].
  - intros k ks K K1 K2 U1 U2 p ps _ H1 _ H2 Hf M HM HK. inversion Hf as [|? ? He Hf']; subst.
    destruct (H1 He M HM HK) as [B1 B1']. set (e1 := size_of k + size_at fetch U1) in *.
    assert (HM1 : 1 <= M * 2 ^ e1) by (pose proof (pow_pos e1); nia).
    destruct (H2 Hf' (M * 2 ^ e1) HM1 B1') as [B2 B2'].
    rewrite size_at_app. unfold sum_sizes, weights in *. cbn [map]. rewrite !ls_cons.
    set (e2 := list_sum (map size_of ks) + size_at fetch U2) in *.
    replace (size_of k + list_sum (map size_of ks) + (size_at fetch U1 + size_at fetch U2)) with (e1 + e2) by (unfold e1, e2; lia).
    rewrite Nat.pow_add_r. split.
    + assert (2 <= 2 ^ e1).
      { assert (1 <= e1) by (unfold e1; pose proof (size_pos k He); lia). destruct e1 as [|e]; [lia|]. cbn [Nat.pow]. pose proof (pow_pos e). lia. }
      assert (2 * (M * 2 ^ e1) * 2 ^ e2 = 2 * M * (2 ^ e1 * 2 ^ e2)) by ring.
      assert (M * 2 ^ e1 >= 2 * M) by nia. lia.
    + intros q Hq. specialize (B2' q Hq). rewrite Nat.mul_assoc. exact B2'.
  - intros k K K' U p _ _ IH _ M HM HK. exact (IH M HM HK).
  - intros k K p _ Hp He M HM HK. pose proof (size_pos k He) as S. pose proof (HK p Hp) as W.
    assert (size_at fetch [] = 0) as -> by reflexivity. rewrite Nat.add_0_r.
    assert (2 <= 2 ^ size_of k).
    { destruct (size_of k) as [|e]; [lia|]. cbn [Nat.pow]. pose proof (pow_pos e). lia. }
    split; [nia|]. intros q Hq. specialize (HK q Hq). nia.
  - intros base k r url d K K' U q p _ _ Hw _ _ Hf _ IH Hp He M HM HK.
    destruct (IH M HM HK) as [B B'].
    assert (Q : size_at fetch (url :: U) = size_of d + size_at fetch U).
    { unfold size_at. cbn [map]. rewrite ls_cons, Hf. reflexivity. }
    rewrite Q. pose proof (size_pos k He) as S.
    set (e := size_of d + size_at fetch U) in *. rewrite Nat.pow_add_r.
    assert (2 <= 2 ^ size_of k).
    { destruct (size_of k) as [|e0]; [lia|]. cbn [Nat.pow]. pose proof (pow_pos e0). lia. }
    pose proof (pow_pos e). specialize (B' p Hp) as W.
    assert (X : M * 2 ^ e * 2 <= M * (2 ^ size_of k * 2 ^ e)) by nia.
    assert (1 <= M * 2 ^ e) by nia.
    split; [lia|]. intros x Hx. specialize (B' x Hx). lia.
Qed.
End Reads.
