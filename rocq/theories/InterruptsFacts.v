(** Lemmas for C98: the moments of a load, and loads that start from them. *)
From Verif Require Import Readers SpecText SpecSetters SpecRead SpecSources SpecFinderThreads SpecInterrupts.
From Verif Require Import EvalFacts StringFacts SettersFacts TextFacts ReadFacts ReadFacts2 ReadFacts3 ReadFacts4.
Local Open Scope list_scope.

Scheme gets_ind' := Minimality for gets_to Sort Prop
  with mgets_ind' := Minimality for member_gets_to Sort Prop.
Combined Scheme gets_mutind from gets_ind', mgets_ind'.

Definition same_set (K L : list policybase) : Prop := forall q, In q K <-> In q L.
Lemma same_refl : forall K, same_set K K.
Proof. intros K q. reflexivity. Qed.
Lemma same_sym : forall K L, same_set K L -> same_set L K.
Proof. intros K L H q. symmetry. apply H. Qed.
Lemma same_trans : forall K L M, same_set K L -> same_set L M -> same_set K M.
Proof. intros K L M H1 H2 q. rewrite (H1 q). apply H2. Qed.
Lemma same_snoc : forall K L p, same_set K L -> same_set (K ++ [p]) (L ++ [p]).
Proof. intros K L p H q. rewrite !in_app_iff, (H q). reflexivity. Qed.
Lemma same_names : forall K L x, same_set K L -> In x (map name_of K) -> In x (map name_of L).
Proof. intros K L x H. apply in_names_incl. intros q Hq. apply H, Hq. Qed.
Lemma same_fresh : forall K L x, same_set K L -> ~ In x (map name_of K) -> ~ In x (map name_of L).
Proof. intros K L x H Hx Hl. apply Hx, (same_names L K); [apply same_sym, H|exact Hl]. Qed.

Lemma one_name : forall K p q, NoDup (map name_of K) -> In p K -> In q K -> name_of p = name_of q -> p = q.
Proof.
  intros K p q Hn Hp Hq H. pose proof (lookup_in K p Hn Hp) as H1. pose proof (lookup_in K q Hn Hq) as H2.
  rewrite H, H2 in H1. injection H1 as ->. reflexivity.
Qed.

Section Reads.
Variable E : renv.
Hypothesis HE : default_readers E.
Variable fetch : string -> res node.
Variable fd : finder.
Notation reads := (reads E fetch fd).
Notation reads_members := (reads_members E fetch fd).
Notation reads_member := (reads_member E fetch fd).
Notation gets_to := (gets_to E fetch fd).
Notation member_gets_to := (member_gets_to E fetch fd).

(** subst, but the finder is not replaced *)
Ltac sub :=
  repeat match goal with
  | H : ?a = ?b |- _ =>
      first [is_var a; assert_fails (constr_eq a fd); subst a | is_var b; assert_fails (constr_eq b fd); subst b]
  end.

(** ** Reading adds at the end *)
Lemma appends :
  (forall n K K' U p, reads n K K' U p -> exists new, K' = K ++ new) /\
  (forall ks K K' U ps, reads_members ks K K' U ps -> exists new, K' = K ++ new) /\
  (forall k K K' U p, reads_member k K K' U p -> exists new, K' = K ++ new).
Proof.
  apply reads_mutind.
  - intros n K p _ _. exists [p]. reflexivity.
  - intros n K K' U id ai alg de t ps p _ _ _ _ _ _ _ _ [new ->] _ _. exists (new ++ [p]). rewrite app_assoc. reflexivity.
  - intros K. exists []. rewrite app_nil_r. reflexivity.
  - intros k ks K K1 K2 U U' p ps _ [n1 ->] _ [n2 ->]. exists (n1 ++ n2). rewrite app_assoc. reflexivity.
  - intros k K K' U p _ _ IH. exact IH.
  - intros k K p _ _. exists []. rewrite app_nil_r. reflexivity.
  - intros base k r url d K K' U q p _ _ _ _ _ _ _ IH _. exact IH.
Qed.

(** ** What is read is determined *)
Lemma policy_doc_one : forall n p q, policy_doc E n p -> policy_doc E n q -> p = q.
Proof.
  intros n p q Hp Hq. apply read_policy_iff in Hp; [|exact HE]. apply read_policy_iff in Hq; [|exact HE]. congruence.
Qed.
Lemma target_doc_one : forall n t u, target_doc E n t -> target_doc E n u -> t = u.
Proof.
  intros n p q Hp Hq. apply read_target_iff in Hp; [|exact HE]. apply read_target_iff in Hq; [|exact HE]. congruence.
Qed.
Lemma last_one_one : forall A (R : node -> A -> Prop) l o o', (forall n a b, R n a -> R n b -> a = b) ->
  last_one R l o -> last_one R l o' -> o = o'.
Proof.
  intros A R l o o' HR. destruct l as [|x l] using rev_ind.
  - rewrite !last_one_nil. congruence.
  - rewrite !last_one_snoc. intros [_ (a & -> & Ha)] [_ (b & -> & Hb)]. rewrite (HR x a b Ha Hb). reflexivity.
Qed.

(** The policy set a policy set element is read as, given what its members are. *)
Definition set_as (n : node) (ps : list policybase) (p : policybase) : Prop :=
  exists id ai alg de t,
    xml_attr "PolicySetId" n = Some id /\ xml_attr "PolicyCombiningAlgId" n = Some ai /\
    policy_algorithm ai = Some alg /\ description_doc n de /\
    last_one (target_doc E) (elems_called "Target" n) t /\
    p = PPolicySet (mkMeta (Some id) (Some (version_doc n)) (Some ai) de None) t (Some alg) ps.
Lemma set_as_one : forall n ps p p', set_as n ps p -> set_as n ps p' -> p = p'.
Proof.
  intros n ps p p' (id & ai & alg & de & t & H1 & H2 & H3 & H4 & H5 & ->) (id' & ai' & alg' & de' & t' & H1' & H2' & H3' & H4' & H5' & ->).
  rewrite description_iff in H4, H4'. rewrite <- H4' in H4. subst de'.
  rewrite (last_one_one _ _ _ t t' target_doc_one H5 H5'). congruence.
Qed.

Lemma reads_set_iff : forall n K K' U p, called "PolicySet" n = true ->
  (reads n K K' U p <->
   allowed_in_set n /\ exists K0 ps, reads_members (members n) K K0 U ps /\ set_as n ps p /\
     ~ In (name_of p) (map name_of K0) /\ K' = K0 ++ [p]).
Proof.
  intros n K K' U p Hc. split.
  - intros H. destruct H as [n K p Hd _|n K K' U id ai alg de t ps p _ Hal H1 H2 H3 H4 H5 Hr Hp Hf].
    + destruct Hd as [Hd _]. destruct (policy_set_differ n Hd Hc).
    + split; [exact Hal|]. exists K', ps. split; [exact Hr|]. split; [|split; [exact Hf|reflexivity]].
      exists id, ai, alg, de, t. auto 10.
  - intros (Hal & K0 & ps & Hr & (id & ai & alg & de & t & H1 & H2 & H3 & H4 & H5 & Hp) & Hf & ->).
    eapply reads_set; eassumption.
Qed.

Lemma reads_kind : forall n K K' U p, reads n K K' U p -> called "PolicySet" n = true \/
  called "Policy" n = true /\ policy_doc E n p /\ ~ In (name_of p) (map name_of K) /\ K' = K ++ [p] /\ U = [].
Proof.
  intros n K K' U p H. destruct H as [n K p Hd Hf|n K K' U id ai alg de t ps p Hc]; [right|left; exact Hc].
  pose proof Hd as [Hc _]. auto.
Qed.

Lemma determined :
  (forall n K K1 U1 p1, reads n K K1 U1 p1 -> NoDup (map name_of K) ->
     forall K2 U2 p2, reads n K K2 U2 p2 -> K2 = K1 /\ p2 = p1) /\
  (forall ks K K1 U1 ps1, reads_members ks K K1 U1 ps1 -> NoDup (map name_of K) ->
     forall K2 U2 ps2, reads_members ks K K2 U2 ps2 -> K2 = K1 /\ ps2 = ps1) /\
  (forall k K K1 U1 p1, reads_member k K K1 U1 p1 -> NoDup (map name_of K) ->
     forall K2 U2 p2, reads_member k K K2 U2 p2 -> K2 = K1 /\ p2 = p1).
Proof.
  apply reads_mutind.
  - intros n K p Hd Hf Hn K2 U2 p2 H2. destruct (reads_kind _ _ _ _ _ H2) as [Hc|(_ & Hd2 & _ & -> & _)].
    + destruct Hd as [Hd _]. destruct (policy_set_differ n Hd Hc).
    + rewrite (policy_doc_one n p2 p Hd2 Hd). auto.
  - intros n K K' U id ai alg de t ps p Hc Hal H1 H2 H3 H4 H5 Hr IH Hp Hf Hn K2 U2 p2 Hr2.
    apply (proj1 (reads_set_iff n _ _ _ _ Hc)) in Hr2. destruct Hr2 as (_ & K0 & ps2 & Hm & Hs & _ & ->).
    destruct (IH Hn K0 U2 ps2 Hm) as [-> ->].
    assert (p2 = p) as -> by (apply (set_as_one n ps); [exact Hs|exists id, ai, alg, de, t; auto 10]).
    auto.
  - intros K Hn K2 U2 ps2 H. inversion H; sub. auto.
  - intros k ks K K1 K2 U U' p ps Hk IHk Hks IHks Hn L2 V ps2 H. inversion H as [|? ? ? M1 ? V1 V2 p2 ps2' Hk2 Hks2]; sub.
    destruct (IHk Hn _ _ _ Hk2) as [-> ->].
    assert (NoDup (map name_of K1)) as Hn1 by (apply (proj2 (proj2 (distinct_mut E fetch fd)) _ _ _ _ _ Hk Hn)).
    destruct (IHks Hn1 _ _ _ Hks2) as [-> ->]. auto.
  - intros k K K' U p Hw Hr IH Hn K2 U2 p2 H. inversion H as [? ? ? ? ? Hw2 Hr2|? ? ? Hw2 Hi2|b2 ? r2 u2 d2 ? ? V2 q2 ? Hb2 Hx2 Hw2 Hf2 Hu2 Hd2 Hr2 Hi2]; sub; try congruence.
    apply (IH Hn _ _ _ Hr2).
  - intros k K p Hw Hi Hn K2 U2 p2 H. inversion H as [? ? ? ? ? Hw2 Hr2|? ? ? Hw2 Hi2|b2 ? r2 u2 d2 ? ? V2 q2 ? Hb2 Hx2 Hw2 Hf2 Hu2 Hd2 Hr2 Hi2]; sub; try congruence.
    + split; [reflexivity|]. apply (one_name K2); try assumption. congruence.
    + destruct Hf2. rewrite Hw in Hw2. injection Hw2 as <-. apply in_map, Hi.
  - intros base k r url d K K' U q p Hb Hx Hw Hf Hu Hd Hr IH Hi Hn K2 U2 p2 H.
    inversion H as [? ? ? ? ? Hw2 Hr2|? ? ? Hw2 Hi2|b2 ? r2 u2 d2 ? ? V2 q2 ? Hb2 Hx2 Hw2 Hf2 Hu2 Hd2 Hr2 Hi2]; sub; try congruence.
    + destruct Hf. rewrite Hw2 in Hw. injection Hw as <-. apply in_map, Hi2.
    + assert (d2 = d) as -> by congruence. destruct (IH Hn _ _ _ Hr2) as [-> _]. split; [reflexivity|].
      apply (one_name K'); try assumption; [|congruence].
      apply (proj1 (distinct_mut E fetch fd) _ _ _ _ _ Hr Hn).
Qed.

(** ** The order of what is held does not matter *)
Lemma reordered :
  (forall n K K' U p, reads n K K' U p -> forall L, same_set K L -> exists L', reads n L L' U p /\ same_set K' L') /\
  (forall ks K K' U ps, reads_members ks K K' U ps -> forall L, same_set K L ->
     exists L', reads_members ks L L' U ps /\ same_set K' L') /\
  (forall k K K' U p, reads_member k K K' U p -> forall L, same_set K L ->
     exists L', reads_member k L L' U p /\ same_set K' L').
Proof.
  apply reads_mutind.
  - intros n K p Hd Hf L Hs. exists (L ++ [p]). split; [|apply same_snoc, Hs].
    apply reads_policy; [exact Hd|]. apply (same_fresh K L); assumption.
  - intros n K K' U id ai alg de t ps p Hc Hal H1 H2 H3 H4 H5 Hr IH Hp Hf L Hs.
    destruct (IH L Hs) as (L' & Hl & Hs'). exists (L' ++ [p]). split; [|apply same_snoc, Hs'].
    eapply reads_set; try eassumption. apply (same_fresh K' L'); assumption.
  - intros K L Hs. exists L. split; [constructor|exact Hs].
  - intros k ks K K1 K2 U U' p ps _ IHk _ IHks L Hs. destruct (IHk L Hs) as (L1 & H1 & Hs1).
    destruct (IHks L1 Hs1) as (L2 & H2 & Hs2). exists L2. split; [|exact Hs2]. eapply reads_more; eassumption.
  - intros k K K' U p Hw _ IH L Hs. destruct (IH L Hs) as (L' & H & Hs'). exists L'. split; [|exact Hs']. apply reads_inline; assumption.
  - intros k K p Hw Hi L Hs. exists L. split; [|exact Hs]. apply reads_known; [exact Hw|]. apply Hs, Hi.
  - intros base k r url d K K' U q p Hb Hx Hw Hf Hu Hd _ IH Hi L Hs. destruct (IH L Hs) as (L' & H & Hs').
    exists L'. split; [|exact Hs']. eapply reads_fetched; try eassumption; [apply (same_fresh K L); assumption|apply Hs', Hi].
Qed.

Lemma gets_reordered :
  (forall n K K1, gets_to n K K1 -> forall L, same_set K L -> exists L1, gets_to n L L1 /\ same_set K1 L1) /\
  (forall k K K1, member_gets_to k K K1 -> forall L, same_set K L -> exists L1, member_gets_to k L L1 /\ same_set K1 L1).
Proof.
  apply gets_mutind.
  - intros n K L Hs. exists L. split; [constructor|exact Hs].
  - intros n K K1 U p Hr L Hs. destruct (proj1 reordered _ _ _ _ _ Hr L Hs) as (L1 & H & Hs1).
    exists L1. split; [eapply gets_done, H|exact Hs1].
  - intros n K before k after K0 U ps K1 Hc Hm Hr _ IH L Hs.
    destruct (proj1 (proj2 reordered) _ _ _ _ _ Hr L Hs) as (L0 & H & Hs0).
    destruct (IH L0 Hs0) as (L1 & H1 & Hs1). exists L1. split; [eapply gets_member; eassumption|exact Hs1].
  - intros k K K1 Hw _ IH L Hs. destruct (IH L Hs) as (L1 & H1 & Hs1). exists L1. split; [apply gets_inline; assumption|exact Hs1].
  - intros base k r url d x K K1 Hb Hx Hw Hf Hu Hd _ IH L Hs. destruct (IH L Hs) as (L1 & H1 & Hs1).
    exists L1. split; [|exact Hs1]. eapply gets_fetched; try eassumption. apply (same_fresh K L); assumption.
Qed.

(** ** Members one after the other *)
Lemma members_app : forall a b K K2 U ps, reads_members (a ++ b) K K2 U ps ->
  exists K1 U1 U2 ps1 ps2, reads_members a K K1 U1 ps1 /\ reads_members b K1 K2 U2 ps2 /\ ps = ps1 ++ ps2.
Proof.
  induction a as [|k a IH]; intros b K K2 U ps H.
  - exists K, [], U, [], ps. split; [constructor|]. split; [exact H|reflexivity].
  - cbn [app] in H. inversion H as [|? ? ? M ? V1 V2 p ps' Hk Hks]; sub.
    destruct (IH b M K2 V2 ps' Hks) as (K1 & U1 & U2 & ps1 & ps2 & H1 & H2 & ->).
    exists K1, (V1 ++ U1), U2, (p :: ps1), ps2. split; [eapply reads_more; eassumption|]. split; [exact H2|reflexivity].
Qed.
Lemma members_one : forall k ks K K2 U ps, reads_members (k :: ks) K K2 U ps ->
  exists K1 U1 U2 p ps', reads_member k K K1 U1 p /\ reads_members ks K1 K2 U2 ps' /\ ps = p :: ps'.
Proof. intros k ks K K2 U ps H. inversion H as [|? ? ? M ? V1 V2 p ps' Hk Hks]; sub. exists M, V1, V2, p, ps'. auto. Qed.

Lemma root_fresh : forall n K K' U p, reads n K K' U p ->
  ~ In (root_name n) (map name_of K) /\ In (root_name n) (map name_of K').
Proof.
  intros n K K' U p H. rewrite <- (root_of E fetch fd n K K' U p H).
  destruct (proj1 (grows E fetch fd) _ _ _ _ _ H) as [_ Hi]. split; [|apply in_map, Hi].
  destruct (reads_kind _ _ _ _ _ H) as [Hc|(_ & _ & Hf & _ & _)]; [|exact Hf].
  apply (proj1 (reads_set_iff n _ _ _ _ Hc)) in H. destruct H as (_ & K0 & ps & Hm & _ & Hf & _).
  intros Hx. apply Hf. apply (in_names_incl K K0); [|exact Hx]. apply (proj1 (proj2 (grows E fetch fd)) _ _ _ _ _ Hm).
Qed.

(** ** Nothing is read again *)
(** Reading members again when all they added is held adds nothing and gives the same. *)
Lemma member_again : forall k K K' U p, reads_member k K K' U p -> forall L L' V q,
  incl K' L -> NoDup (map name_of L) -> reads_member k L L' V q -> L' = L /\ q = p.
Proof.
  intros k K K' U p H L L' V q Hi Hn H2.
  destruct (proj2 (proj2 (grows E fetch fd)) _ _ _ _ _ H) as [_ Hp].
  inversion H2 as [? ? ? ? ? Hw2 Hr2|? ? ? Hw2 Hi2|b2 ? r2 u2 d2 ? ? V2 q2 ? Hb2 Hx2 Hw2 Hf2 Hu2 Hd2 Hr2 Hi2]; sub;
  inversion H as [? ? ? ? ? Hw1 Hr1|? ? ? Hw1 Hi1|b1 ? r1 u1 d1 ? ? V1 q1 ? Hb1 Hx1 Hw1 Hf1 Hu1 Hd1 Hr1 Hi1]; sub; try congruence.
  - destruct (root_fresh _ _ _ _ _ Hr2) as [Hc _]. destruct Hc.
    apply (in_names_incl K' L _ Hi). apply (root_fresh _ _ _ _ _ Hr1).
  - split; [reflexivity|]. apply (one_name L'); auto. congruence.
  - split; [reflexivity|]. apply (one_name L'); auto. congruence.
  - destruct Hf2. rewrite Hw2 in Hw1. injection Hw1 as ->. apply in_map, Hi, Hp.
  - destruct Hf2. rewrite Hw2 in Hw1. injection Hw1 as ->. apply in_map, Hi, Hp.
Qed.
Lemma members_again : forall ks K K' U ps, reads_members ks K K' U ps -> forall L L' V qs,
  incl K' L -> NoDup (map name_of L) -> reads_members ks L L' V qs -> L' = L /\ qs = ps.
Proof.
  induction ks as [|k ks IH]; intros K K' U ps H L L' V qs Hi Hn H2.
  - inversion H; sub. inversion H2; sub. auto.
  - apply members_one in H. destruct H as (K1 & U1 & U2 & p & ps' & Hk & Hks & ->).
    apply members_one in H2. destruct H2 as (L1 & V1 & V2 & q & qs' & Hk2 & Hks2 & ->).
    pose proof (proj1 (proj1 (proj2 (grows E fetch fd)) _ _ _ _ _ Hks)) as Hg.
    destruct (member_again _ _ _ _ _ Hk L L1 V1 q) as [-> ->]; [intros x Hx; apply Hi, Hg, Hx|exact Hn|exact Hk2|].
    destruct (IH _ _ _ _ Hks L L' V2 qs' Hi Hn Hks2) as [-> ->]. auto.
Qed.
(** Attempts to read again what is all held get nowhere. *)
Lemma gets_again :
  (forall n K K' U p, reads n K K' U p -> forall L L', incl K' L -> NoDup (map name_of L) -> gets_to n L L' -> L' = L) /\
  (forall ks K K' U ps, reads_members ks K K' U ps -> forall L L' k, incl K' L -> NoDup (map name_of L) ->
     In k ks -> member_gets_to k L L' -> L' = L) /\
  (forall k K K' U p, reads_member k K K' U p -> forall L L', incl K' L -> NoDup (map name_of L) ->
     member_gets_to k L L' -> L' = L).
Proof.
  apply reads_mutind.
  - intros n K p Hd Hf L L' Hi Hn H.
    inversion H as [|? ? ? V q Hr|? ? before k after K0 V ps ? Hc Hm Hr Hk]; sub; [reflexivity| |].
    + destruct (root_fresh _ _ _ _ _ Hr) as [Hx _]. destruct Hx. apply (in_names_incl (K ++ [p]) L _ Hi).
      destruct (root_fresh n K (K ++ [p]) [] p) as [_ Hy]; [apply reads_policy; assumption|exact Hy].
    + destruct Hd as [Hd _]. destruct (policy_set_differ n Hd Hc).
  - intros n K K' U id ai alg de t ps p Hc Hal H1 H2 H3 H4 H5 Hr IH Hp Hf L L' Hi Hn H.
    assert (Hi' : incl K' L) by (intros x Hx; apply Hi, in_or_app; left; exact Hx).
    inversion H as [|? ? ? V q Hr2|? ? before k after K0 V qs ? Hc2 Hm Hr2 Hk]; sub; [reflexivity| |].
    + destruct (root_fresh _ _ _ _ _ Hr2) as [Hx _]. destruct Hx. eapply (in_names_incl _ L _ Hi).
      eapply root_fresh. eapply reads_set; try eassumption. reflexivity.
    + rewrite Hm in Hr. pose proof Hr as Hall. apply members_app in Hr. destruct Hr as (Ka & U1 & U2 & ps1 & ps2 & Ha & Hb & ->).
      pose proof (proj1 (proj1 (proj2 (grows E fetch fd)) _ _ _ _ _ Hb)) as Hg.
      destruct (members_again _ _ _ _ _ Ha L K0 V qs) as [-> _]; [intros x Hx; apply Hi', Hg, Hx|exact Hn|exact Hr2|].
      apply (IH L L' k Hi' Hn); [|exact Hk]. rewrite Hm. apply in_or_app. right. left. reflexivity.
  - intros K L L' k _ _ [].
  - intros k ks K K1 K2 U U' p ps Hk IHk Hks IHks L L' k' Hi Hn [<-|Hin] H.
    + apply (IHk L L'); [|exact Hn|exact H]. intros x Hx. apply Hi.
      apply (proj1 (proj1 (proj2 (grows E fetch fd)) _ _ _ _ _ Hks)), Hx.
    + apply (IHks L L' k' Hi Hn Hin H).
  - intros k K K' U p Hw Hr IH L L' Hi Hn H. inversion H as [? ? ? Hw2 Hg|b ? r url d x ? ? Hb Hx Hw2 Hf Hu Hd Hg]; sub; [|congruence].
    apply (IH L L' Hi Hn Hg).
  - intros k K p Hw Hi0 L L' Hi Hn H. inversion H as [? ? ? Hw2 Hg|b ? r url d x ? ? Hb Hx Hw2 Hf Hu Hd Hg]; sub; [congruence|].
    destruct Hf. rewrite Hw in Hw2. injection Hw2 as <-. apply in_map, Hi, Hi0.
  - intros base k r url d K K' U q p Hb Hx Hw Hf Hu Hd Hr IH Hi0 L L' Hi Hn H.
    inversion H as [? ? ? Hw2 Hg|b ? r' url' d' x ? ? Hb' Hx' Hw2 Hf' Hu' Hd' Hg]; sub; [congruence|].
    destruct Hf'. rewrite Hw in Hw2. injection Hw2 as <-. apply in_map, Hi, Hi0.
Qed.

(** ** Moments of a load that comes to its end *)
Lemma moments_before :
  (forall n K K1, gets_to n K K1 -> NoDup (map name_of K) -> forall K' U p, reads n K K' U p ->
     exists new, K' = K1 ++ new) /\
  (forall k K K1, member_gets_to k K K1 -> NoDup (map name_of K) -> forall K' U p, reads_member k K K' U p ->
     exists new, K' = K1 ++ new).
Proof.
  apply gets_mutind.
  - intros n K _ K' U p H. apply (proj1 appends _ _ _ _ _ H).
  - intros n K K1 U p Hr Hn K' U' p' H. destruct (proj1 determined _ _ _ _ _ Hr Hn _ _ _ H) as [-> _].
    exists []. rewrite app_nil_r. reflexivity.
  - intros n K before k after K0 U ps K1 Hc Hm Hr _ IH Hn K' U' p H.
    apply (proj1 (reads_set_iff n _ _ _ _ Hc)) in H. destruct H as (_ & Kx & qs & Hq & _ & _ & ->).
    rewrite Hm in Hq. apply members_app in Hq. destruct Hq as (Ka & U1 & U2 & ps1 & ps2 & Ha & Hb & ->).
    destruct (proj1 (proj2 determined) _ _ _ _ _ Hr Hn _ _ _ Ha) as [-> _].
    apply members_one in Hb. destruct Hb as (Kb & V1 & V2 & q & qs' & Hk & Hks & ->).
    assert (NoDup (map name_of K0)) as Hn0 by (apply (proj1 (proj2 (distinct_mut E fetch fd)) _ _ _ _ _ Hr Hn)).
    destruct (IH Hn0 _ _ _ Hk) as [new ->]. destruct (proj1 (proj2 appends) _ _ _ _ _ Hks) as [new' ->].
    exists (new ++ new' ++ [p]). rewrite !app_assoc. reflexivity.
  - intros k K K1 Hw _ IH Hn K' U p H. inversion H as [? ? ? ? ? Hw2 Hr2|? ? ? Hw2 Hi2|b2 ? r2 u2 d2 ? ? V2 q2 ? Hb2 Hx2 Hw2 Hf2 Hu2 Hd2 Hr2 Hi2]; sub; try congruence.
    apply (IH Hn _ _ _ Hr2).
  - intros base k r url d x K K1 Hb Hx Hw Hf Hu Hd _ IH Hn K' U p H.
    inversion H as [? ? ? ? ? Hw2 Hr2|? ? ? Hw2 Hi2|b2 ? r2 u2 d2 ? ? V2 q2 ? Hb2 Hx2 Hw2 Hf2 Hu2 Hd2 Hr2 Hi2]; sub; try congruence.
    + destruct Hf. rewrite Hw in Hw2. injection Hw2 as ->. apply in_map, Hi2.
    + assert (d2 = d) as -> by congruence. apply (IH Hn _ _ _ Hr2).
Qed.

Lemma gets_appends :
  (forall n K K1, gets_to n K K1 -> exists new, K1 = K ++ new) /\
  (forall k K K1, member_gets_to k K K1 -> exists new, K1 = K ++ new).
Proof.
  apply gets_mutind; auto.
  - intros n K. exists []. rewrite app_nil_r. reflexivity.
  - intros n K K1 U p H. apply (proj1 appends _ _ _ _ _ H).
  - intros n K before k after K0 U ps K1 _ _ Hr _ [new ->]. destruct (proj1 (proj2 appends) _ _ _ _ _ Hr) as [new' ->].
    exists (new' ++ new). rewrite app_assoc. reflexivity.
Qed.
Lemma gets_distinct :
  (forall n K K1, gets_to n K K1 -> NoDup (map name_of K) -> NoDup (map name_of K1)) /\
  (forall k K K1, member_gets_to k K K1 -> NoDup (map name_of K) -> NoDup (map name_of K1)).
Proof.
  apply gets_mutind; auto.
  - intros n K K1 U p H. apply (proj1 (distinct_mut E fetch fd) _ _ _ _ _ H).
  - intros n K before k after K0 U ps K1 _ _ Hr _ IH Hn. apply IH, (proj1 (proj2 (distinct_mut E fetch fd)) _ _ _ _ _ Hr Hn).
Qed.

(** The root is added last. *)
Lemma root_last : forall n K K1, gets_to n K K1 -> NoDup (map name_of K) -> forall K' U p, reads n K K' U p ->
  In (root_name n) (map name_of K1) -> K1 = K'.
Proof.
  intros n K K1 H Hn K' U p Hr Hx.
  inversion H as [|? ? ? V q Hr2|? ? before k after K0 V qs ? Hc2 Hm Hr2 Hk]; sub.
  - destruct (root_fresh _ _ _ _ _ Hr) as [Hf _]. contradiction.
  - symmetry. apply (proj1 determined _ _ _ _ _ Hr2 Hn _ _ _ Hr).
  - pose proof (root_of E fetch fd _ _ _ _ _ Hr) as Hro.
    apply (proj1 (reads_set_iff n _ _ _ _ Hc2)) in Hr. destruct Hr as (_ & Kx & ps & Hq & _ & Hf & ->).
    rewrite Hm in Hq. apply members_app in Hq. destruct Hq as (Ka & U1 & U2 & ps1 & ps2 & Ha & Hb & ->).
    destruct (proj1 (proj2 determined) _ _ _ _ _ Hr2 Hn _ _ _ Ha) as [-> _].
    apply members_one in Hb. destruct Hb as (Kb & V1 & V2 & q & qs' & Hk2 & Hks & ->).
    assert (NoDup (map name_of K0)) as Hn0 by (apply (proj1 (proj2 (distinct_mut E fetch fd)) _ _ _ _ _ Hr2 Hn)).
    destruct (proj2 moments_before _ _ _ Hk Hn0 _ _ _ Hk2) as [new ->]. destruct Hf. rewrite Hro.
    destruct (proj1 (proj2 appends) _ _ _ _ _ Hks) as [new' ->]. rewrite !map_app, !in_app_iff. auto.
Qed.

(** ** Trying again *)
Section Again.
Variable top : node.
Hypothesis Hwp : well_placed fetch fd top.
Definition here (m : node) : Prop := exists d, reaches fetch fd top d /\ inside m d.
Lemma here_member : forall n k, here n -> In k (members n) -> here k.
Proof.
  intros n k (d & Hd & Hi) Hk. exists d. split; [exact Hd|]. apply (inside_trans k n d); [|exact Hi].
  apply (inside_kid k n k); [apply member_elem, Hk|apply inside_self].
Qed.
Lemma here_fetched : forall k base r url d x, here k -> wanted k = Some x -> fd = UrlFinder base -> xml_text k = Some r ->
  make_url base r = Ok url -> fetch url = Ok d -> here d /\ root_name d = x.
Proof.
  intros k base r url d x (d0 & H0 & Hi) Hw Hb Hx Hu Hd. split.
  - exists d. split; [|apply inside_self]. apply (reach_ref fetch fd top base d0 k r url d); auto. congruence.
  - apply (Hwp base d0 k x r url d); assumption.
Qed.

Lemma again :
  (forall n K K1, gets_to n K K1 -> here n -> NoDup (map name_of K) -> forall K' U p, reads n K K' U p ->
     forall K2 V q, reads n K1 K2 V q -> q = p /\ same_set K2 K') /\
  (forall k K K1, member_gets_to k K K1 -> here k -> NoDup (map name_of K) -> forall K' U p, reads_member k K K' U p ->
     forall K2 V q, reads_member k K1 K2 V q -> q = p /\ same_set K2 K').
Proof.
  apply gets_mutind.
  - intros n K _ Hn K' U p H K2 V q H2. destruct (proj1 determined _ _ _ _ _ H Hn _ _ _ H2) as [-> ->].
    split; [reflexivity|apply same_refl].
  - intros n K K1 U0 p0 Hr _ Hn K' U p H K2 V q H2. destruct (root_fresh _ _ _ _ _ H2) as [Hf _]. destruct Hf.
    apply (root_fresh _ _ _ _ _ Hr).
  - intros n K before k after K0 U0 ps0 K1 Hc Hm Hr Hg IH Hh Hn K' U p H K2 V q H2.
    assert (NoDup (map name_of K0)) as Hn0 by (apply (proj1 (proj2 (distinct_mut E fetch fd)) _ _ _ _ _ Hr Hn)).
    assert (NoDup (map name_of K1)) as Hn1 by (apply (proj2 gets_distinct _ _ _ Hg Hn0)).
    apply (proj1 (reads_set_iff n _ _ _ _ Hc)) in H. destruct H as (_ & Kx & ps & Hq & Hs & _ & ->).
    apply (proj1 (reads_set_iff n _ _ _ _ Hc)) in H2. destruct H2 as (_ & Ky & ps' & Hq' & Hs' & _ & ->).
    rewrite Hm in Hq, Hq'. apply members_app in Hq. destruct Hq as (Ka & U1 & U2 & ps1 & ps2 & Ha & Hb & ->).
    destruct (proj1 (proj2 determined) _ _ _ _ _ Hr Hn _ _ _ Ha) as [-> ->].
    apply members_app in Hq'. destruct Hq' as (Kc & V1 & V2 & qs1 & qs2 & Hc1 & Hd1 & ->).
    destruct (members_again _ _ _ _ _ Hr K1 Kc V1 qs1) as [-> ->].
    { destruct (proj2 gets_appends _ _ _ Hg) as [new ->]. intros x Hx. apply in_or_app. left. exact Hx. }
    { exact Hn1. } { exact Hc1. }
    apply members_one in Hb. destruct Hb as (Kb & W1 & W2 & p1 & ps3 & Hk & Hks & ->).
    apply members_one in Hd1. destruct Hd1 as (Kd & X1 & X2 & p2 & ps4 & Hk' & Hks' & ->).
    assert (Hhk : here k) by (apply (here_member n k Hh); rewrite Hm; apply in_or_app; right; left; reflexivity).
    destruct (IH Hhk Hn0 _ _ _ Hk _ _ _ Hk') as [-> Hss].
    destruct (proj1 (proj2 reordered) _ _ _ _ _ Hks Kd (same_sym _ _ Hss)) as (Kz & Hz & Hsz).
    assert (NoDup (map name_of Kd)) as Hnd by (apply (proj2 (proj2 (distinct_mut E fetch fd)) _ _ _ _ _ Hk' Hn1)).
    destruct (proj1 (proj2 determined) _ _ _ _ _ Hz Hnd _ _ _ Hks') as [-> ->].
    assert (q = p) as -> by (apply (set_as_one n (ps0 ++ p1 :: ps3)); assumption).
    split; [reflexivity|]. apply same_snoc, same_sym, Hsz.
  - intros k K K1 Hw _ IH Hh Hn K' U p H K2 V q H2.
    inversion H as [? ? ? ? ? Hw1 Hr1|? ? ? Hw1 Hi1|b1 ? r1 u1 d1 ? ? V1 q1 ? Hb1 Hx1 Hw1 Hf1 Hu1 Hd1 Hr1 Hi1]; sub; try congruence.
    inversion H2 as [? ? ? ? ? Hw2 Hr2|? ? ? Hw2 Hi2|b2 ? r2 u2 d2 ? ? V2 q2 ? Hb2 Hx2 Hw2 Hf2 Hu2 Hd2 Hr2 Hi2]; sub; try congruence.
    apply (IH Hh Hn _ _ _ Hr1 _ _ _ Hr2).
  - intros base k r url d x K K1 Hb Hx Hw Hf Hu Hd Hg IH Hh Hn K' U p H K2 V q H2.
    destruct (here_fetched k base r url d x Hh Hw Hb Hx Hu Hd) as [Hhd Hroot].
    inversion H as [? ? ? ? ? Hw1 Hr1|? ? ? Hw1 Hi1|b1 ? r1 u1 d1 ? ? V1 q1 ? Hb1 Hx1 Hw1 Hf1 Hu1 Hd1 Hr1 Hi1]; sub; try congruence.
    { destruct Hf. rewrite Hw in Hw1. injection Hw1 as ->. apply in_map, Hi1. }
    assert (d1 = d) as -> by congruence.
    assert (NoDup (map name_of K')) as Hn' by (apply (proj1 (distinct_mut E fetch fd) _ _ _ _ _ Hr1 Hn)).
    inversion H2 as [? ? ? ? ? Hw2 Hr2|? ? ? Hw2 Hi2|b2 ? r2 u2 d2 ? ? V2 q2 ? Hb2 Hx2 Hw2 Hf2 Hu2 Hd2 Hr2 Hi2]; sub; try congruence.
    + assert (K2 = K') as ->.
      { apply (root_last _ _ _ Hg Hn _ _ _ Hr1). rewrite Hw in Hw2. injection Hw2 as ->. apply in_map, Hi2. }
      split; [|apply same_refl]. apply (one_name K'); auto. congruence.
    + assert (d2 = d) as -> by congruence. destruct (IH Hhd Hn _ _ _ Hr1 _ _ _ Hr2) as [_ Hss].
      split; [|exact Hss]. apply (one_name K'); auto; [apply Hss, Hi2|congruence].
Qed.

Lemma app_split : forall A (a b c d : list A) x y, a ++ x :: b = c ++ y :: d ->
  (exists m, a = c ++ y :: m) \/ (a = c /\ x = y) \/ (exists m, c = a ++ x :: m /\ b = m ++ y :: d).
Proof.
  induction a as [|z a IH]; intros b [|w c] d x y H; cbn [app] in *.
  - injection H as -> ->. auto.
  - injection H as -> ->. right. right. exists c. auto.
  - injection H as -> H. left. exists a. reflexivity.
  - injection H as -> H. destruct (IH _ _ _ _ _ H) as [[m ->]|[[-> ->]|[m [-> ->]]]].
    + left. exists m. reflexivity.
    + auto.
    + right. right. exists m. auto.
Qed.

(** A further attempt leaves what one attempt could have left. *)
Lemma further :
  (forall n K K1, gets_to n K K1 -> here n -> NoDup (map name_of K) -> forall K' U p, reads n K K' U p ->
     forall K2, gets_to n K1 K2 -> exists L, gets_to n K L /\ same_set K2 L) /\
  (forall k K K1, member_gets_to k K K1 -> here k -> NoDup (map name_of K) -> forall K' U p, reads_member k K K' U p ->
     forall K2, member_gets_to k K1 K2 -> exists L, member_gets_to k K L /\ same_set K2 L).
Proof.
  apply gets_mutind.
  - intros n K _ Hn K' U p H K2 H2. exists K2. split; [exact H2|apply same_refl].
  - intros n K K1 U0 p0 Hr _ Hn K' U p H K2 H2.
    assert (K2 = K1) as ->.
    { apply (proj1 gets_again _ _ _ _ _ Hr K1 K2 (incl_refl _)); [|exact H2].
      apply (proj1 (distinct_mut E fetch fd) _ _ _ _ _ Hr Hn). }
    exists K1. split; [eapply gets_done, Hr|apply same_refl].
  - intros n K before k after K0 U0 ps0 K1 Hc Hm Hr Hg IH Hh Hn K' U p H K2 H2.
    assert (NoDup (map name_of K0)) as Hn0 by (apply (proj1 (proj2 (distinct_mut E fetch fd)) _ _ _ _ _ Hr Hn)).
    assert (NoDup (map name_of K1)) as Hn1 by (apply (proj2 gets_distinct _ _ _ Hg Hn0)).
    assert (Hsub : incl K0 K1).
    { destruct (proj2 gets_appends _ _ _ Hg) as [new ->]. intros x Hx. apply in_or_app. left. exact Hx. }
    assert (Hself : gets_to n K K1) by (eapply gets_member; eassumption).
    inversion H2 as [|? ? ? V q Hr2|? ? before2 k2 after2 Ka V2 qs ? _ Hm2 Hr2 Hk2]; sub.
    + exists K2. split; [exact Hself|apply same_refl].
    + destruct (proj1 again _ _ _ Hself Hh Hn _ _ _ H _ _ _ Hr2) as [-> Hss].
      exists K'. split; [eapply gets_done, H|exact Hss].
    + rewrite Hm in Hm2. destruct (app_split _ _ _ _ _ _ _ Hm2) as [[m ->]|[[<- <-]|[m [-> ->]]]].
      * pose proof Hr as Hall. apply members_app in Hall. destruct Hall as (Kb & U1 & U2 & ps1 & ps2 & Hp1 & Hp2 & ->).
        pose proof (proj1 (proj1 (proj2 (grows E fetch fd)) _ _ _ _ _ Hp2)) as Hg2.
        destruct (members_again _ _ _ _ _ Hp1 K1 Ka V2 qs) as [-> _]; [intros x Hx; apply Hsub, Hg2, Hx|exact Hn1|exact Hr2|].
        apply members_one in Hp2. destruct Hp2 as (Kc & W1 & W2 & q & qs' & Hk & Hks & ->).
        pose proof (proj1 (proj1 (proj2 (grows E fetch fd)) _ _ _ _ _ Hks)) as Hg3.
        assert (K2 = K1) as ->.
        { apply (proj2 (proj2 gets_again) _ _ _ _ _ Hk K1 K2); [intros x Hx; apply Hsub, Hg3, Hx|exact Hn1|exact Hk2]. }
        exists K1. split; [exact Hself|apply same_refl].
      * destruct (members_again _ _ _ _ _ Hr K1 Ka V2 qs Hsub Hn1 Hr2) as [-> _].
        apply (proj1 (reads_set_iff n _ _ _ _ Hc)) in H. destruct H as (_ & Kx & ps & Hq & _ & _ & ->).
        rewrite Hm in Hq. apply members_app in Hq. destruct Hq as (Kb & U1 & U2 & ps1 & ps2 & Ha & Hb & ->).
        destruct (proj1 (proj2 determined) _ _ _ _ _ Hr Hn _ _ _ Ha) as [-> ->].
        apply members_one in Hb. destruct Hb as (Kc & W1 & W2 & p1 & ps3 & Hk & Hks & ->).
        assert (Hhk : here k) by (apply (here_member n k Hh); rewrite Hm; apply in_or_app; right; left; reflexivity).
        destruct (IH Hhk Hn0 _ _ _ Hk _ Hk2) as (L & HL & Hss). exists L. split; [|exact Hss].
        eapply gets_member; eassumption.
      * apply (proj1 (reads_set_iff n _ _ _ _ Hc)) in H. destruct H as (_ & Kx & ps & Hq & _ & _ & ->).
        rewrite Hm in Hq. apply members_app in Hq. destruct Hq as (Kb & U1 & U2 & ps1 & ps2 & Ha & Hb & ->).
        destruct (proj1 (proj2 determined) _ _ _ _ _ Hr Hn _ _ _ Ha) as [-> ->].
        apply members_one in Hb. destruct Hb as (Kc & W1 & W2 & p1 & ps3 & Hk & Hks & ->).
        apply members_app in Hr2. destruct Hr2 as (Kd & X1 & X2 & qs1 & qs2 & Hd1 & Hd2 & ->).
        destruct (members_again _ _ _ _ _ Hr K1 Kd X1 qs1 Hsub Hn1 Hd1) as [-> ->].
        apply members_one in Hd2. destruct Hd2 as (Ke & Y1 & Y2 & p2 & ps4 & Hk' & Hks' & ->).
        assert (Hhk : here k) by (apply (here_member n k Hh); rewrite Hm; apply in_or_app; right; left; reflexivity).
        destruct (proj2 again _ _ _ Hg Hhk Hn0 _ _ _ Hk _ _ _ Hk') as [-> Hss].
        destruct (proj1 (proj2 reordered) _ _ _ _ _ Hks' Kc Hss) as (Kz & Hz & Hsz).
        destruct (proj2 gets_reordered _ _ _ Hk2 Kz Hsz) as (L & HL & HsL).
        exists L. split; [|exact HsL].
        assert (exists Ur psr, reads_members (before ++ k :: m) K Kz Ur psr) as (Ur & psr & Hr').
        { clear - Hr Hk Hz. revert K K0 U0 ps0 Hr Hk Hz. induction before as [|b before IH]; intros K K0 U0 ps0 Hr Hk Hz.
          - inversion Hr; sub. eexists _, _. eapply reads_more; eassumption.
          - apply members_one in Hr. destruct Hr as (M & A1 & A2 & b1 & bs & Hb1 & Hbs & ->).
            destruct (IH M K0 A2 bs Hbs Hk Hz) as (Ur & psr & H). eexists _, _. cbn [app]. eapply reads_more; eassumption. }
        eapply gets_member; [exact Hc| |exact Hr'|exact HL]. rewrite Hm, <- app_assoc. reflexivity.
  - intros k K K1 Hw _ IH Hh Hn K' U p H K2 H2.
    inversion H as [? ? ? ? ? Hw1 Hr1|? ? ? Hw1 Hi1|b1 ? r1 u1 d1 ? ? V1 q1 ? Hb1 Hx1 Hw1 Hf1 Hu1 Hd1 Hr1 Hi1]; sub; try congruence.
    inversion H2 as [? ? ? Hw2 Hg2|b ? r' url' d' x' ? ? Hb' Hx' Hw2 Hf' Hu' Hd' Hg2]; sub; [|congruence].
    destruct (IH Hh Hn _ _ _ Hr1 _ Hg2) as (L & HL & Hss). exists L. split; [apply gets_inline; assumption|exact Hss].
  - intros base k r url d x K K1 Hb Hx Hw Hf Hu Hd Hg IH Hh Hn K' U p H K2 H2.
    destruct (here_fetched k base r url d x Hh Hw Hb Hx Hu Hd) as [Hhd _].
    inversion H as [? ? ? ? ? Hw1 Hr1|? ? ? Hw1 Hi1|b1 ? r1 u1 d1 ? ? V1 q1 ? Hb1 Hx1 Hw1 Hf1 Hu1 Hd1 Hr1 Hi1]; sub; try congruence.
    { destruct Hf. rewrite Hw in Hw1. injection Hw1 as ->. apply in_map, Hi1. }
    assert (d1 = d) as -> by congruence.
    inversion H2 as [? ? ? Hw2 Hg2|b ? r' url' d' x' ? ? Hb' Hx' Hw2 Hf' Hu' Hd' Hg2]; sub; [congruence|].
    assert (d' = d) as -> by congruence.
    destruct (IH Hhd Hn _ _ _ Hr1 _ Hg2) as (L & HL & Hss). exists L. split; [|exact Hss].
    apply (gets_fetched E fetch fd base k r url d x); assumption.
Qed.
End Again.

(** Elements written in a document have names that were not held. *)
Lemma declared_root : forall n x, declared n x -> x = root_name n.
Proof.
  intros n x Hd. unfold root_name. destruct Hd as [[Hc ->]|[Hc ->]]; [rewrite Hc; reflexivity|].
  destruct (called "Policy" n) eqn:Ep; [destruct (policy_set_differ n Ep Hc)|reflexivity].
Qed.
Lemma no_members : forall n p k, policy_doc E n p -> ~ In k (members n).
Proof.
  intros n p k (Hc & Hal & _) Hk. apply filter_In in Hk. destruct Hk as [Hk Hm].
  pose proof (elems_is n k Hk) as He. destruct (Hal k Hk) as (x & Hx & Hxk).
  fold (is_member k) in Hm. rewrite member_at in Hm by exact He.
  rewrite called_ln in Hxk; [|destruct Hx as [<-|[<-|[<-|[<-|[]]]]]; reflexivity|exact He].
  apply String.eqb_eq in Hxk. rewrite Hxk in Hm.
  destruct Hx as [<-|[<-|[<-|[<-|[]]]]]; discriminate Hm.
Qed.
Lemma written_fresh :
  (forall n K K' U p, reads n K K' U p -> forall m x, written_in m n -> declared m x -> ~ In x (map name_of K)) /\
  (forall ks K K' U ps, reads_members ks K K' U ps -> forall k m x, In k ks -> wanted k = None -> written_in m k ->
     declared m x -> ~ In x (map name_of K)) /\
  (forall k K K' U p, reads_member k K K' U p -> forall m x, wanted k = None -> written_in m k -> declared m x ->
     ~ In x (map name_of K)).
Proof.
  apply reads_mutind.
  - intros n K p Hd Hf m x Hw Hx. destruct Hw as [|n k Hk _ _].
    + rewrite (declared_root _ _ Hx). eapply root_fresh. apply reads_policy; eassumption.
    + destruct (no_members n p k Hd Hk).
  - intros n K K' U id ai alg de t ps p Hc Hal H1 H2 H3 H4 H5 Hr IH Hp Hf m x Hw Hx. destruct Hw as [|n k Hk Hwk Hm].
    + rewrite (declared_root _ _ Hx). eapply root_fresh. eapply reads_set; eassumption.
    + apply (IH k m x Hk Hwk Hm Hx).
  - intros K k m x [].
  - intros k ks K K1 K2 U U' p ps Hk IHk Hks IHks k' m x [<-|Hin] Hw Hm Hx.
    + apply (IHk m x Hw Hm Hx).
    + intros Hi. apply (IHks k' m x Hin Hw Hm Hx). apply (in_names_incl K K1); [|exact Hi].
      apply (proj2 (proj2 (grows E fetch fd)) _ _ _ _ _ Hk).
  - intros k K K' U p Hw _ IH m x _ Hm Hx. apply (IH m x Hm Hx).
  - intros k K p Hw _ m x Hw'. congruence.
  - intros base k r url d K K' U q p _ _ Hw _ _ _ _ _ _ m x Hw'. congruence.
Qed.
End Reads.

(** ** A web that does not always answer *)
Section Times.
Variable E : renv.
Variables fetch' fetch : string -> res node.
Hypothesis Ht : at_times fetch' fetch.
Variable fd : finder.
Lemma reads_times :
  (forall n K K' U p, reads E fetch' fd n K K' U p -> reads E fetch fd n K K' U p) /\
  (forall ks K K' U ps, reads_members E fetch' fd ks K K' U ps -> reads_members E fetch fd ks K K' U ps) /\
  (forall k K K' U p, reads_member E fetch' fd k K K' U p -> reads_member E fetch fd k K K' U p).
Proof.
  apply reads_mutind.
  - intros. apply reads_policy; assumption.
  - intros. eapply reads_set; eassumption.
  - constructor.
  - intros. eapply reads_more; eassumption.
  - intros. apply reads_inline; assumption.
  - intros. apply reads_known; assumption.
  - intros base k r url d K K' U q p Hb Hx Hw Hf Hu Hd _ IH Hi.
    eapply reads_fetched; try eassumption. apply Ht, Hd.
Qed.
Lemma gets_times :
  (forall n K K1, gets_to E fetch' fd n K K1 -> gets_to E fetch fd n K K1) /\
  (forall k K K1, member_gets_to E fetch' fd k K K1 -> member_gets_to E fetch fd k K K1).
Proof.
  apply gets_mutind.
  - constructor.
  - intros n K K1 U p H. eapply gets_done, reads_times, H.
  - intros n K before k after K0 U ps K1 Hc Hm Hr _ IH. eapply gets_member; try eassumption. apply reads_times, Hr.
  - intros k K K1 Hw _ IH. apply gets_inline; assumption.
  - intros base k r url d x K K1 Hb Hx Hw Hf Hu Hd _ IH. eapply gets_fetched; try eassumption. apply Ht, Hd.
Qed.
End Times.
