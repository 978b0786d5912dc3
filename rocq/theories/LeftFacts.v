(** Lemmas about what a document that cannot be read leaves. *)
From Verif Require Import Readers Sources SpecText SpecSetters SpecRead SpecLeft.
From Verif Require Import EvalFacts StringFacts SettersFacts TextFacts ReadFacts ReadFacts2 ReadFacts3 ReadFacts4
  SourcesFacts InterruptsFacts RefusalsFacts RefusalsFacts2 RefusalsFacts4.
Local Open Scope string_scope.
Local Open Scope list_scope.

Scheme left_ind' := Minimality for left_by Sort Prop
  with left_at_ind' := Minimality for left_at Sort Prop.
Combined Scheme left_mutind from left_ind', left_at_ind'.

Section Left.
Variable E : renv.
Hypothesis HE : default_readers E.
Variable fetch : string -> res node.
Variable fd : finder.
Notation reads := (reads E fetch fd).
Notation reads_members := (reads_members E fetch fd).
Notation reads_member := (reads_member E fetch fd).
Notation left_by := (left_by E fetch fd).
Notation left_at := (left_at E fetch fd).
Notation at_ K F := (mkFstate (holding K) F).
Ltac sub :=
  repeat match goal with
  | H : ?a = ?b |- _ =>
      first [is_var a; assert_fails (constr_eq a fd); subst a | is_var b; assert_fails (constr_eq b fd); subst b]
  end.
Ltac case_name n s := destruct (String.eqb_spec (ln n) s) as [?Hn|?Hn].
Ltac named := apply called_is; [reflexivity|assumption|assumption].

Lemma stands_member : forall k, stands k = is_member k.
Proof. reflexivity. Qed.

(** ** What is left is left by something that cannot be read, and there is one such. *)
Lemma order_allowed : forall n K K' U p, called "PolicySet" n = true -> reads n K K' U p ->
  forall x, In x (elems n) -> stands x = true \/ in_order E x.
Proof.
  intros n K K' U p Hc H x Hx. apply (proj1 (reads_set_iff E fetch fd n _ _ _ _ Hc)) in H.
  destruct H as (Hal & K0 & ps & _ & (id & ai & alg & de & t & _ & _ & _ & _ & Ht & _) & _).
  destruct (Hal x Hx) as (s & Hs & Hn). unfold stands, in_order.
  destruct Hs as [<-|[<-|[<-|[<-|[<-|[<-|[]]]]]]]; rewrite Hn; rewrite ?Bool.orb_true_r; auto.
  right. right. split; [reflexivity|]. destruct Ht as [Ht _]. apply Ht. apply filter_In. auto.
Qed.
Lemma begun_reads : forall n K K' U p, called "PolicySet" n = true -> reads n K K' U p -> set_begun n.
Proof.
  intros n K K' U p Hc H. apply (proj1 (reads_set_iff E fetch fd n _ _ _ _ Hc)) in H.
  destruct H as (_ & K0 & ps & _ & (id & ai & alg & de & t & H1 & H2 & H3 & _) & _). split; [exact Hc|]. eauto 8.
Qed.
Lemma wanted_stands : forall k x, wanted k = Some x -> stands k = true.
Proof.
  intros k x H. unfold wanted in H. unfold stands.
  destruct (called "PolicyIdReference" k); [rewrite !Bool.orb_true_r; reflexivity|].
  destruct (called "PolicySetIdReference" k); [rewrite !Bool.orb_true_r; reflexivity|discriminate H].
Qed.

Lemma left_unread :
  (forall n K K1, left_by n K K1 -> NoDup (map name_of K) -> forall K' U p, ~ reads n K K' U p) /\
  (forall k K K1, left_at k K K1 -> NoDup (map name_of K) ->
     (stands k = true \/ in_order E k -> stands k = true) /\ forall K' U p, ~ (stands k = true /\ reads_member k K K' U p)).
Proof.
  apply left_mutind.
  - intros n K _ H _. exact H.
  - intros n K before k after K0 U ps K1 [Hc _] He Hb Hr _ IH Hn K' V p H.
    pose proof (order_allowed _ _ _ _ _ Hc H k ltac:(rewrite He; apply in_or_app; right; left; reflexivity)) as Ho.
    assert (Hn0 : NoDup (map name_of K0)) by exact (proj1 (proj2 (distinct_mut E fetch fd)) _ _ _ _ _ Hr Hn).
    destruct (IH Hn0) as [I1 I2]. specialize (I1 Ho).
    apply (proj1 (reads_set_iff E fetch fd n _ _ _ _ Hc)) in H. destruct H as (_ & L & qs & Hm & _).
    assert (M : members n = filter stands before ++ k :: filter stands after).
    { unfold members. change (filter stands (elems n) = filter stands before ++ k :: filter stands after).
      rewrite He, filter_app. cbn [filter]. rewrite I1. reflexivity. }
    rewrite M in Hm. apply members_app in Hm. destruct Hm as (L1 & U1 & U2 & q1 & q2 & H1 & H2 & _).
    destruct (proj1 (proj2 (determined E HE fetch fd)) _ _ _ _ _ Hr Hn _ _ _ H1) as [-> _].
    apply members_one in H2. destruct H2 as (L2 & V1 & V2 & q & qs' & H2 & _). exact (I2 _ _ _ (conj I1 H2)).
  - intros n K K1 U ps id [Hc _] Hid _ Hr Hi Hn K' V p H.
    apply (proj1 (reads_set_iff E fetch fd n _ _ _ _ Hc)) in H. destruct H as (_ & L & qs & Hm & Hs & Hf & _).
    destruct (proj1 (proj2 (determined E HE fetch fd)) _ _ _ _ _ Hr Hn _ _ _ Hm) as [-> _].
    destruct Hs as (id' & ai & alg & de & t & H1 & _ & _ & _ & _ & ->). apply Hf. cbn. rewrite Hid in H1. injection H1 as <-. exact Hi.
  - intros k K Hs Ho _. split; [intros [H|H]; [exact H|contradiction]|]. intros K' U p [H _]. congruence.
  - intros k K K1 Hs Hw _ IH Hn. split; [auto|]. intros K' U p [_ H].
    inversion H as [? ? ? ? ? Hw2 Hr2|? ? ? Hw2 Hi2|b2 ? r2 u2 d2 ? ? V2 q2 ? Hb2 Hx2 Hw2 Hf2 Hu2 Hd2 Hr2 Hi2]; sub; try congruence.
    exact (IH Hn _ _ _ Hr2).
  - intros k x K Hw Hx Hno Hn. split; [intros _; exact (wanted_stands _ _ Hw)|]. intros K' U p [_ H].
    inversion H as [? ? ? ? ? Hw2 Hr2|? ? ? Hw2 Hi2|b2 ? r2 u2 d2 ? ? V2 q2 ? Hb2 Hx2 Hw2 Hf2 Hu2 Hd2 Hr2 Hi2]; sub; try congruence.
    + apply Hx. rewrite Hw in Hw2. injection Hw2 as ->. apply in_map, Hi2.
    + exact (Hno _ _ _ _ Hb2 Hx2 Hu2 Hd2).
  - intros base k x r url d K K1 Hfd Hw Hx Ht Hu Hd _ IH Hn. split; [intros _; exact (wanted_stands _ _ Hw)|]. intros K' U p [_ H].
    inversion H as [? ? ? ? ? Hw2 Hr2|? ? ? Hw2 Hi2|b2 ? r2 u2 d2 ? ? V2 q2 ? Hb2 Hx2 Hw2 Hf2 Hu2 Hd2 Hr2 Hi2]; sub; try congruence.
    + apply Hx. rewrite Hw in Hw2. injection Hw2 as ->. apply in_map, Hi2.
    + assert (d2 = d) as -> by congruence. exact (IH Hn _ _ _ Hr2).
  - intros base k x r url d K K1 U q Hfd Hw Hx Ht Hu Hd Hr Hm Hn. split; [intros _; exact (wanted_stands _ _ Hw)|]. intros K' V p [_ H].
    inversion H as [? ? ? ? ? Hw2 Hr2|? ? ? Hw2 Hi2|b2 ? r2 u2 d2 ? ? V2 q2 ? Hb2 Hx2 Hw2 Hf2 Hu2 Hd2 Hr2 Hi2]; sub; try congruence.
    + apply Hx. rewrite Hw in Hw2. injection Hw2 as ->. apply in_map, Hi2.
    + assert (d2 = d) as -> by congruence.
      destruct (proj1 (determined E HE fetch fd) _ _ _ _ _ Hr Hn _ _ _ Hr2) as [-> _].
      apply Hm. rewrite Hw in Hw2. injection Hw2 as ->. apply in_map, Hi2.
Qed.

Lemma filter_prefix : forall a (k : node) m b, a = b ++ k :: m -> stands k = true ->
  filter stands a = filter stands b ++ k :: filter stands m.
Proof. intros a k m b -> H. rewrite filter_app. cbn [filter]. rewrite H. reflexivity. Qed.
Lemma not_before : forall a b (k : node) m K K0 U ps Kb V qs K1, a = b ++ k :: m -> NoDup (map name_of K) ->
  (forall x, In x a -> stands x = true \/ in_order E x) -> reads_members (filter stands a) K K0 U ps ->
  reads_members (filter stands b) K Kb V qs -> left_at k Kb K1 -> False.
Proof.
  intros a b k m K K0 U ps Kb V qs K1 Ha Hn Ho Hr Hb Hl.
  assert (Hnb : NoDup (map name_of Kb)) by exact (proj1 (proj2 (distinct_mut E fetch fd)) _ _ _ _ _ Hb Hn).
  destruct (proj2 left_unread _ _ _ Hl Hnb) as [I1 I2].
  assert (S : stands k = true) by (apply I1, Ho; rewrite Ha; apply in_or_app; right; left; reflexivity).
  rewrite (filter_prefix a k m b Ha S) in Hr. apply members_app in Hr. destruct Hr as (L1 & U1 & U2 & q1 & q2 & H1 & H2 & _).
  destruct (proj1 (proj2 (determined E HE fetch fd)) _ _ _ _ _ Hb Hn _ _ _ H1) as [-> _].
  apply members_one in H2. destruct H2 as (L2 & V1 & V2 & q & qs' & H2 & _). exact (I2 _ _ _ (conj S H2)).
Qed.

Lemma left_one :
  (forall n K K1, left_by n K K1 -> NoDup (map name_of K) -> forall K2, left_by n K K2 -> K2 = K1) /\
  (forall k K K1, left_at k K K1 -> NoDup (map name_of K) -> forall K2, left_at k K K2 -> K2 = K1).
Proof.
  apply left_mutind.
  - intros n K Hb _ _ K2 H. inversion H; sub; [reflexivity|contradiction|contradiction].
  - intros n K before k after K0 U ps K1 Hb He Ho Hr Hl IH Hn K2 H.
    assert (Hn0 : NoDup (map name_of K0)) by exact (proj1 (proj2 (distinct_mut E fetch fd)) _ _ _ _ _ Hr Hn).
    inversion H as [? ? Hnb|? ? before2 k2 after2 L0 V qs ? _ He2 Ho2 Hr2 Hl2|? ? ? V qs id _ Hid Ho2 Hr2 Hi]; sub; [contradiction| |].
    + rewrite He in He2. destruct (app_split _ _ _ _ _ _ _ He2) as [(m & Hm)|[(-> & ->)|(m & Hm & _)]].
      * exfalso. exact (not_before _ _ _ _ _ _ _ _ _ _ _ _ Hm Hn Ho Hr Hr2 Hl2).
      * destruct (proj1 (proj2 (determined E HE fetch fd)) _ _ _ _ _ Hr Hn _ _ _ Hr2) as [-> _]. exact (IH Hn0 _ Hl2).
      * exfalso. exact (not_before _ _ _ _ _ _ _ _ _ _ _ _ Hm Hn Ho2 Hr2 Hr Hl).
    + exfalso. exact (not_before (elems n) _ _ _ _ _ _ _ _ _ _ _ He Hn Ho2 Hr2 Hr Hl).
  - intros n K K1 U ps id Hb Hid Ho Hr Hi Hn K2 H.
    inversion H as [? ? Hnb|? ? before2 k2 after2 L0 V qs ? _ He2 Ho2 Hr2 Hl2|? ? ? V qs id2 _ Hid2 Ho2 Hr2 Hi2]; sub; [contradiction| |].
    + exfalso. exact (not_before (elems n) _ _ _ _ _ _ _ _ _ _ _ He2 Hn Ho Hr Hr2 Hl2).
    + exact (proj1 (proj1 (proj2 (determined E HE fetch fd)) _ _ _ _ _ Hr Hn _ _ _ Hr2)).
  - intros k K Hs Ho _ K2 H. inversion H; sub; try reflexivity; try congruence;
      match goal with Hw : wanted k = Some _ |- _ => pose proof (wanted_stands _ _ Hw); congruence end.
  - intros k K K1 Hs Hw _ IH Hn K2 H. inversion H; sub; try congruence. apply IH; assumption.
  - intros k x K Hw Hx Hno Hn K2 H. inversion H; sub; try reflexivity; try congruence;
      exfalso; eapply Hno; eassumption.
  - intros base k x r url d K K1 Hfd Hw Hx Ht Hu Hd Hl IH Hn K2 H.
    inversion H as [? ? Hs2|? ? ? Hs2 Hw2|? x2 ? Hw2 Hx2 Hno2|b2 ? x2 r2 u2 d2 ? ? Hb2 Hw2 Hx2 Ht2 Hu2 Hd2 Hl2|b2 ? x2 r2 u2 d2 ? ? V2 q2 Hb2 Hw2 Hx2 Ht2 Hu2 Hd2 Hr2]; sub; try congruence.
    + pose proof (wanted_stands _ _ Hw). congruence.
    + exfalso. exact (Hno2 _ _ _ _ Hfd Ht Hu Hd).
    + assert (d2 = d) as -> by congruence. exact (IH Hn _ Hl2).
    + assert (d2 = d) as -> by congruence. exfalso. exact (proj1 left_unread _ _ _ Hl Hn _ _ _ Hr2).
  - intros base k x r url d K K1 U q Hfd Hw Hx Ht Hu Hd Hr Hm Hn K2 H.
    inversion H as [? ? Hs2|? ? ? Hs2 Hw2|? x2 ? Hw2 Hx2 Hno2|b2 ? x2 r2 u2 d2 ? ? Hb2 Hw2 Hx2 Ht2 Hu2 Hd2 Hl2|b2 ? x2 r2 u2 d2 ? ? V2 q2 Hb2 Hw2 Hx2 Ht2 Hu2 Hd2 Hr2]; sub; try congruence.
    + pose proof (wanted_stands _ _ Hw). congruence.
    + exfalso. exact (Hno2 _ _ _ _ Hfd Ht Hu Hd).
    + assert (d2 = d) as -> by congruence. exfalso. exact (proj1 left_unread _ _ _ Hl2 Hn _ _ _ Hr).
    + assert (d2 = d) as -> by congruence. exact (proj1 (proj1 (determined E HE fetch fd) _ _ _ _ _ Hr Hn _ _ _ Hr2)).
Qed.
End Left.
