(** Lemmas about documents that include others instead of referring to them. *)
From Verif Require Import Readers SpecText SpecSetters SpecRead SpecBundle.
From Verif Require Import EvalFacts ReadFacts ReadFacts2 ReadFacts3 ReadFacts4 AmplifyFacts.

Section Bundle.
Variables (E : renv) (fetch : string -> res node) (base : option string).
Notation included := (included fetch base).
Notation child_included := (child_included fetch base).

Definition roots (n : node) : Prop := called "Policy" n = true \/ called "PolicySet" n = true.
Definition refers (n : node) : Prop := called "PolicyIdReference" n = true \/ called "PolicySetIdReference" n = true.

Lemma included_shape : forall n n', included n n' ->
  (forall s, called s n' = called s n) /\ (forall s, xml_attr s n' = xml_attr s n) /\ xml_text n' = xml_text n /\
  wanted n' = wanted n.
Proof. intros n n' H. destruct H; repeat split. Qed.
Lemma wanted_refers : forall k x, wanted k = Some x -> refers k.
Proof.
  intros k x H. unfold wanted in H. unfold refers. destruct (called "PolicyIdReference" k); [auto|].
  destruct (called "PolicySetIdReference" k); [auto|discriminate].
Qed.
Definition is_mem (k : node) : bool :=
  called "Policy" k || called "PolicySet" k || called "PolicyIdReference" k || called "PolicySetIdReference" k.
Definition is_el (k : node) : bool := match k with Elem _ _ _ _ => true | Comment _ => false end.
Lemma roots_mem : forall k, roots k -> is_mem k = true.
Proof. intros k [H|H]; unfold is_mem; rewrite H; [reflexivity|]. destruct (called "Policy" k); reflexivity. Qed.
Lemma refers_mem : forall k, refers k -> is_mem k = true.
Proof.
  intros k [H|H]; unfold is_mem; rewrite H; [|apply Bool.orb_true_r].
  rewrite Bool.orb_true_r. reflexivity.
Qed.
Lemma mem_el : forall k, is_mem k = true -> is_el k = true.
Proof. intros [|]; [reflexivity|discriminate]. Qed.
Lemma called_el' : forall s k, called s k = true -> is_el k = true.
Proof. intros s [|]; [reflexivity|discriminate]. Qed.
Lemma mem_not : forall s k, s = "Description" \/ s = "Target" -> is_mem k = true -> called s k = false.
Proof.
  intros s k Hs H. destruct (called s k) eqn:C; [exfalso|reflexivity].
  assert (B : has_char close_brace s = false) by (destruct Hs as [-> | ->]; reflexivity).
  unfold is_mem in H.
  destruct (called "Policy" k) eqn:H1; [pose proof (called_both s "Policy" k B eq_refl C H1); destruct Hs; congruence|].
  destruct (called "PolicySet" k) eqn:H2; [pose proof (called_both s "PolicySet" k B eq_refl C H2); destruct Hs; congruence|].
  destruct (called "PolicyIdReference" k) eqn:H3;
    [pose proof (called_both s "PolicyIdReference" k B eq_refl C H3); destruct Hs; congruence|].
  cbn [orb] in H. pose proof (called_both s "PolicySetIdReference" k B eq_refl C H). destruct Hs; congruence.
Qed.

(** What a child and the child put in its place have in common. *)
Lemma child_shape : forall k k', child_included k k' ->
  is_el k' = is_el k /\ is_mem k' = is_mem k /\ (k' = k \/ is_mem k = true) /\
  (forall s, s = "Description" \/ s = "Target" -> called s k' = called s k).
Proof.
  intros k k' H. destruct H as [k k' H|k r url d k' Ht Hu Hf Hr Hw H].
  - destruct H as [n|tag attrs text kids kids' Hc Hk]; [auto|].
    split; [reflexivity|]. split; [reflexivity|]. split; [right; apply roots_mem; right; exact Hc|reflexivity].
  - destruct (included_shape _ _ H) as (Sc & _).
    assert (M' : is_mem k' = true) by (apply roots_mem; unfold roots; rewrite !Sc; exact Hr).
    assert (M : is_mem k = true) by (apply refers_mem; exact (wanted_refers _ _ Hw)).
    rewrite (mem_el _ M), (mem_el _ M'), M, M'. repeat split; [auto|]. intros s Hs.
    rewrite (mem_not s k Hs M), (mem_not s k' Hs M'). reflexivity.
Qed.

Lemma filter_filter : forall A (f g : A -> bool) l, filter f (filter g l) = filter (fun x => g x && f x) l.
Proof.
  induction l as [|x l IH]; [reflexivity|]. cbn [filter]. destruct (g x); cbn [andb filter]; rewrite IH; reflexivity.
Qed.
Lemma members_filter : forall tag attrs text kids, members (Elem tag attrs text kids) = filter is_mem kids.
Proof.
  intros. unfold members, elems. rewrite filter_filter. apply filter_ext. intros k. fold (is_mem k) (is_el k).
  destruct (is_mem k) eqn:M; [rewrite (mem_el _ M); reflexivity|apply Bool.andb_false_r].
Qed.
Lemma named_filter : forall s tag attrs text kids, elems_called s (Elem tag attrs text kids) = filter (called s) kids.
Proof.
  intros. unfold elems_called, elems. rewrite filter_filter. apply filter_ext. intros k. fold (is_el k).
  destruct (called s k) eqn:M; [rewrite (called_el' _ _ M); reflexivity|apply Bool.andb_false_r].
Qed.

Lemma kids_members : forall kids kids', Forall2 child_included kids kids' ->
  Forall2 child_included (filter is_mem kids) (filter is_mem kids').
Proof.
  induction 1 as [|k k' l l' H _ IH]; [constructor|]. destruct (child_shape _ _ H) as (_ & M & _). cbn [filter].
  rewrite M. destruct (is_mem k); [constructor|]; assumption.
Qed.
Lemma kids_named : forall s kids kids', s = "Description" \/ s = "Target" -> Forall2 child_included kids kids' ->
  filter (called s) kids' = filter (called s) kids.
Proof.
  intros s kids kids' Hs. induction 1 as [|k k' l l' H _ IH]; [reflexivity|].
  destruct (child_shape _ _ H) as (_ & _ & M & C). cbn [filter]. rewrite (C s Hs), IH.
  destruct (called s k) eqn:K; [|reflexivity]. destruct M as [-> |M]; [reflexivity|].
  rewrite (mem_not s k Hs M) in K. discriminate.
Qed.

Definition set_names := ["Description"; "Target"; "Policy"; "PolicySet"; "PolicyIdReference"; "PolicySetIdReference"].
Lemma mem_names : forall k, is_mem k = true -> called_one_of set_names k.
Proof.
  intros k H. unfold is_mem in H. apply Bool.orb_true_iff in H. destruct H as [H|H].
  - apply Bool.orb_true_iff in H. destruct H as [H|H].
    + apply Bool.orb_true_iff in H. destruct H as [H|H]; [exists "Policy"|exists "PolicySet"]; (split; [unfold set_names; cbn; tauto|exact H]).
    + exists "PolicyIdReference". split; [unfold set_names; cbn; tauto|exact H].
  - exists "PolicySetIdReference". split; [unfold set_names; cbn; tauto|exact H].
Qed.
Lemma allowed_both : forall tag attrs text kids kids', Forall2 child_included kids kids' ->
  (allowed_in_set (Elem tag attrs text kids) <-> allowed_in_set (Elem tag attrs text kids')).
Proof.
  intros tag attrs text kids kids' H. unfold allowed_in_set. fold set_names. cbn [elems].
  induction H as [|k k' l l' H _ IH]; [reflexivity|]. destruct (child_shape _ _ H) as (L & M & Sm & _).
  cbn [filter]. fold (is_el k) (is_el k'). rewrite L. destruct (is_el k) eqn:El; [|exact IH].
  assert (X : called_one_of set_names k <-> called_one_of set_names k').
  { destruct Sm as [-> |Sm]; [reflexivity|]. split; intros _; apply mem_names; congruence. }
  split; intros F c [<-|Hc].
  - apply X, F. left. reflexivity.
  - apply (proj1 IH); [intros; apply F; right; assumption|exact Hc].
  - apply X, F. left. reflexivity.
  - apply (proj2 IH); [intros; apply F; right; assumption|exact Hc].
Qed.

(** *** A document with inclusions is read as the one with references *)
Lemma reads_fresh : forall fd n K K' U p, reads E fetch fd n K K' U p -> ~ In (name_of p) (map name_of K).
Proof.
  intros fd n K K' U p H. destruct H as [n K p _ N|n K K' urls id ai alg de t ps p _ _ _ _ _ _ _ Hm _ N]; [exact N|].
  intro X. apply N. exact (in_names_incl K K' _ (proj1 (proj1 (proj2 (grows E fetch fd)) _ _ _ _ _ Hm)) X).
Qed.
Lemma reads_roots : forall fd n K K' U p, reads E fetch fd n K K' U p -> roots n.
Proof. intros fd n K K' U p H. destruct H as [n K p (Hc & _) _|]; [left; exact Hc|right; assumption]. Qed.

Lemma unbundle : let fd := UrlFinder base in
  (forall n' K K' U p, reads E fetch fd n' K K' U p -> forall n, included n n' ->
     exists U0, reads E fetch fd n K K' U0 p /\ incl U U0) /\
  (forall ks' K K' U ps, reads_members E fetch fd ks' K K' U ps -> forall ks, Forall2 child_included ks ks' ->
     exists U0, reads_members E fetch fd ks K K' U0 ps /\ incl U U0) /\
  (forall k' K K' U p, reads_member E fetch fd k' K K' U p -> forall k, child_included k k' ->
     exists U0, reads_member E fetch fd k K K' U0 p /\ incl U U0).
Proof.
  intro fd. apply reads_mutind.
  - intros n' K p Hd N n H. exists []. split; [|apply incl_refl].
    inversion H as [|tag attrs text kids kids' Hc Hk]; subst; [apply reads_policy; assumption|].
    exfalso. destruct Hd as (Hp & _). apply (policy_set_differ _ Hp). exact Hc.
  - intros n' K K' U id ai alg de t ps p Hc Ha Hid Hai Hal Hde Ht Hm IH Hp N n H.
    inversion H as [|tag attrs text kids kids' Hc' Hk]; subst.
    + exists U. split; [|apply incl_refl]. eapply reads_set; eauto.
    + rewrite members_filter in IH. destruct (IH _ (kids_members _ _ Hk)) as (U0 & HU & HI).
      exists U0. split; [|exact HI].
      eapply (reads_set E fetch fd (Elem tag attrs text kids) K K' U0 id ai alg de t ps); try assumption; try reflexivity.
      * apply (proj2 (allowed_both tag attrs text kids kids' Hk)). exact Ha.
      * unfold description_doc in *. rewrite named_filter in *. rewrite <- (kids_named "Description" _ _ (or_introl eq_refl) Hk). exact Hde.
      * rewrite named_filter in *. rewrite <- (kids_named "Target" _ _ (or_intror eq_refl) Hk). exact Ht.
      * rewrite members_filter. exact HU.
  - intros K ks H. inversion H; subst. exists []. split; [constructor|apply incl_refl].
  - intros k' ks' K K1 K2 U1 U2 p ps _ IH1 _ IH2 ks H. inversion H as [|k ? l ? Hk Hl]; subst.
    destruct (IH1 _ Hk) as (V1 & R1 & I1). destruct (IH2 _ Hl) as (V2 & R2 & I2).
    exists (V1 ++ V2). split; [econstructor; eassumption|]. apply incl_app_app; assumption.
  - intros k' K K' U p Hw Hr IH k H. inversion H as [? ? Hi|? r url d ? Ht Hu Hf Hd Hwk Hi]; subst.
    + destruct (IH _ Hi) as (U0 & R & I). exists U0. split; [|exact I]. apply reads_inline; [|exact R].
      destruct (included_shape _ _ Hi) as (_ & _ & _ & W). congruence.
    + destruct (IH _ Hi) as (U0 & R & I). exists (url :: U0). split; [|apply incl_tl; exact I].
      eapply reads_fetched; try eassumption; [reflexivity| | |].
      * rewrite (root_of E fetch fd _ _ _ _ _ R). exact Hwk.
      * exact (reads_fresh fd _ _ _ _ _ R).
      * exact (proj2 (proj1 (grows E fetch fd) _ _ _ _ _ R)).
  - intros k' K p Hw Hp k H. exists []. split; [|apply incl_refl].
    inversion H as [? ? Hi|? r url d ? Ht Hu Hf Hd Hwk Hi]; subst.
    + apply reads_known; [|exact Hp]. destruct (included_shape _ _ Hi) as (_ & _ & _ & W). congruence.
    + exfalso. destruct (included_shape _ _ Hi) as (Sc & _).
      rewrite (wanted_policy_none k') in Hw; [discriminate|]. rewrite !Sc. exact Hd.
  - intros b k' r url d K K' U q p Hb Ht Hw N Hu Hf Hr _ Hp k H. exists (url :: U). split; [|apply incl_refl].
    inversion H as [? ? Hi|? r' url' d' ? Ht' Hu' Hf' Hd Hwk Hi]; subst.
    + destruct (included_shape _ _ Hi) as (_ & _ & T & W). eapply reads_fetched; try eassumption; congruence.
    + exfalso. destruct (included_shape _ _ Hi) as (Sc & _).
      rewrite (wanted_policy_none k') in Hw; [discriminate|]. rewrite !Sc. exact Hd.
Qed.

(** *** Every document that is read can be bundled *)
Lemma splice : forall kids l', Forall2 child_included (filter is_mem kids) l' ->
  exists kids', Forall2 child_included kids kids' /\ filter is_mem kids' = l'.
Proof.
  induction kids as [|k kids IH]; intros l' H; cbn [filter] in H.
  - inversion H; subst. exists []. split; [constructor|reflexivity].
  - destruct (is_mem k) eqn:M.
    + inversion H as [|? k' ? l Hk Hl]; subst. destruct (IH _ Hl) as (ks & Hks & <-).
      exists (k' :: ks). split; [constructor; assumption|]. cbn [filter].
      destruct (child_shape _ _ Hk) as (_ & M' & _). rewrite M', M. reflexivity.
    + destruct (IH _ H) as (ks & Hks & <-). exists (k :: ks).
      split; [constructor; [apply child_inside, included_same|exact Hks]|]. cbn [filter]. rewrite M. reflexivity.
Qed.

Variable seen : node -> Prop.
Hypothesis Hseen : forall u d m, fetch u = Ok d -> inside m d -> seen m.
Hypothesis Haddr : forall k r url d, seen k -> wanted k <> None -> xml_text k = Some r ->
  make_url base r = Ok url -> fetch url = Ok d -> wanted k = Some (root_name d).
Lemma bundle : let fd := UrlFinder base in
  (forall n K K' U p, reads E fetch fd n K K' U p -> (forall m, inside m n -> seen m) -> exists n', included n n' /\
     forall fetch' fd', reads E fetch' fd' n' K K' [] p) /\
  (forall ks K K' U ps, reads_members E fetch fd ks K K' U ps -> (forall k m, In k ks -> inside m k -> seen m) -> exists ks', Forall2 child_included ks ks' /\
     forall fetch' fd', reads_members E fetch' fd' ks' K K' [] ps) /\
  (forall k K K' U p, reads_member E fetch fd k K K' U p -> (forall m, inside m k -> seen m) -> exists k', child_included k k' /\
     forall fetch' fd', reads_member E fetch' fd' k' K K' [] p).
Proof.
  intro fd. apply reads_mutind.
  - intros n K p Hd N _. exists n. split; [apply included_same|]. intros. apply reads_policy; assumption.
  - intros n K K' U id ai alg de t ps p Hc Ha Hid Hai Hal Hde Ht Hm IH Hp N Hs.
    destruct IH as (ks' & IH1 & IH2).
    { intros k m Hk Hi. apply Hs. apply (inside_kid m n k); [exact (member_elem n k Hk)|exact Hi]. }
    destruct n as [tag attrs text kids|]; [|discriminate Hc]. rewrite members_filter in IH1.
    destruct (splice _ _ IH1) as (kids' & Hk & Hf).
    exists (Elem tag attrs text kids'). split; [apply included_set; assumption|]. intros fetch' fd'.
    apply (reads_set E fetch' fd' (Elem tag attrs text kids') K K' [] id ai alg de t ps); try assumption.
    + apply (proj1 (allowed_both tag attrs text kids kids' Hk)). exact Ha.
    + unfold description_doc in *. rewrite named_filter in *. rewrite (kids_named "Description" _ _ (or_introl eq_refl) Hk). exact Hde.
    + rewrite named_filter in *. rewrite (kids_named "Target" _ _ (or_intror eq_refl) Hk). exact Ht.
    + rewrite members_filter, Hf. apply IH2.
  - intros K _. exists []. split; [constructor|intros; constructor].
  - intros k ks K K1 K2 U1 U2 p ps _ IH1 _ IH2 Hs.
    destruct IH1 as (k' & H1 & R1); [intros m Hi; exact (Hs k m (or_introl eq_refl) Hi)|].
    destruct IH2 as (ks' & H2 & R2); [intros x m Hx Hi; exact (Hs x m (or_intror Hx) Hi)|]. exists (k' :: ks').
    split; [constructor; assumption|]. intros fetch' fd'.
    exact (reads_more E fetch' fd' k' ks' K K1 K2 [] [] p ps (R1 fetch' fd') (R2 fetch' fd')).
  - intros k K K' U p Hw Hr IH Hs. destruct (IH Hs) as (k' & Hi & R). exists k'. split; [apply child_inside; exact Hi|]. intros.
    apply reads_inline; [|apply R]. destruct (included_shape _ _ Hi) as (_ & _ & _ & W). congruence.
  - intros k K p Hw Hp _. exists k. split; [apply child_inside, included_same|]. intros. apply reads_known; assumption.
  - intros b k r url d K K' U q p Hb Ht Hw N Hu Hf Hr IH Hp Hs.
    destruct IH as (d' & Hi & R); [intros m Hm; exact (Hseen url d m Hf Hm)|].
    assert (b = base) as -> by (unfold fd in Hb; congruence).
    assert (W : wanted k = Some (root_name d)) by (apply (Haddr k r url d); [apply Hs, inside_self|congruence|assumption..]).
    assert (Dr : roots d) by exact (reads_roots fd _ _ _ _ _ Hr).
    assert (Q : name_of q = name_of p).
    { rewrite (root_of E fetch fd _ _ _ _ _ Hr). congruence. }
    exists d'. split; [apply (child_replaced fetch base k r url d d'); assumption|]. intros fetch' fd'.
    assert (q = p) as ->.
    { destruct Hr as [n K p0 Hd N'|n K K' urls id ai alg de t ps p0 Hc Ha Hid Hai Hal Hde Htt Hm Hp0 N'].
      - apply in_app_or in Hp. destruct Hp as [Hp|[->|[]]]; [|reflexivity]. exfalso. apply N.
        apply in_map. exact Hp.
      - apply in_app_or in Hp. destruct Hp as [Hp|[->|[]]]; [|reflexivity]. exfalso. apply N'. rewrite Q.
        apply in_map. exact Hp. }
    apply reads_inline; [|apply R]. apply wanted_policy_none.
    destruct (included_shape _ _ Hi) as (Sc & _). rewrite !Sc. exact Dr.
Qed.
End Bundle.
