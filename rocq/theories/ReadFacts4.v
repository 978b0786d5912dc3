(** More lemmas for C44, C45 and C47. *)
From Verif Require Import Readers SpecText SpecSetters SpecRead.
From Verif Require Import EvalFacts StringFacts SettersFacts TextFacts ReadFacts ReadFacts2 ReadFacts3.

Section Reads.
Variable E : renv.
Variable fetch : string -> res node.
Variable fd : finder.
Notation reads := (reads E fetch fd).
Notation reads_members := (reads_members E fetch fd).
Notation reads_member := (reads_member E fetch fd).

(** ** What is known grows *)
Lemma grows :
  (forall n K K' U p, reads n K K' U p -> incl K K' /\ In p K') /\
  (forall ks K K' U ps, reads_members ks K K' U ps -> incl K K' /\ incl ps K') /\
  (forall k K K' U p, reads_member k K K' U p -> incl K K' /\ In p K').
Proof.
  apply reads_mutind.
  - intros n K p _ _. split; [apply incl_appl, incl_refl|apply in_or_app; right; left; reflexivity].
  - intros n K K' U id ai alg de t ps p _ _ _ _ _ _ _ _ [IH _] _ _.
    split; [apply incl_appl, IH|apply in_or_app; right; left; reflexivity].
  - intros K. split; [apply incl_refl|intros x []].
  - intros k ks K K1 K2 U1 U2 p ps _ [H1 H1'] _ [H2 H2'].
    split; [apply incl_tran with K1; assumption|]. intros x [<-|Hx]; [apply H2, H1'|apply H2', Hx].
  - intros k K K' U p _ _ H. exact H.
  - intros k K p _ Hp. split; [apply incl_refl|exact Hp].
  - intros base k r url d K K' U q p _ _ _ _ _ _ _ [H _] Hp. split; assumption.
Qed.

(** ** Meaning *)
Lemma meaning_mut :
  (forall n K K' U p, reads n K K' U p -> forall K2, incl K' K2 -> doc_means E (fun q => In q K2) n p) /\
  (forall ks K K' U ps, reads_members ks K K' U ps -> forall K2, incl K' K2 ->
     Forall2 (doc_means E (fun q => In q K2)) ks ps) /\
  (forall k K K' U p, reads_member k K K' U p -> forall K2, incl K' K2 ->
     doc_means E (fun q => In q K2) k p).
Proof.
  apply reads_mutind.
  - intros n K p Hd _ K2 _. apply means_policy, Hd.
  - intros n K K' U id ai alg de t ps p Hc Hal Hid Hai Ha Hde Ht _ IH -> _ K2 HK.
    apply means_set; try assumption. apply IH. intros x Hx. apply HK, in_or_app. left. exact Hx.
  - intros K K2 _. constructor.
  - intros k ks K K1 K2 U1 U2 p ps _ IH1 Hr IH2 K3 HK. constructor.
    + apply IH1. apply incl_tran with K2; [|exact HK]. exact (proj1 (proj1 (proj2 grows) _ _ _ _ _ Hr)).
    + apply IH2, HK.
  - intros k K K' U p _ _ IH. exact IH.
  - intros k K p Hw Hp K2 HK. apply means_reference; [exact Hw|apply HK, Hp].
  - intros base k r url d K K' U q p _ _ Hw _ _ _ _ _ Hp K2 HK. apply means_reference; [exact Hw|apply HK, Hp].
Qed.

(** ** Where known policies come from *)
Lemma inside_trans : forall a b c, inside a b -> inside b c -> inside a c.
Proof.
  intros a b c H1 H2. induction H2 as [|c k Hk H2 IH]; [exact H1|]. exact (inside_kid a c k Hk IH).
Qed.

Lemma member_elem : forall n k, In k (members n) -> In k (elems n).
Proof. intros n k H. apply filter_In in H. apply H. Qed.

Lemma source_mut :
  (forall n K K' U p, reads n K K' U p -> forall K2, incl K' K2 -> forall q, In q K' -> In q K \/
     exists m, occurs fetch n U m /\ (called "Policy" m = true \/ called "PolicySet" m = true) /\
       doc_means E (fun x => In x K2) m q) /\
  (forall ks K K' U ps, reads_members ks K K' U ps -> forall K2, incl K' K2 -> forall q, In q K' -> In q K \/
     exists m, ((exists k, In k ks /\ inside m k) \/ (exists u d, In u U /\ fetch u = Ok d /\ inside m d)) /\
       (called "Policy" m = true \/ called "PolicySet" m = true) /\
       doc_means E (fun x => In x K2) m q) /\
  (forall k K K' U p, reads_member k K K' U p -> forall K2, incl K' K2 -> forall q, In q K' -> In q K \/
     exists m, occurs fetch k U m /\ (called "Policy" m = true \/ called "PolicySet" m = true) /\
       doc_means E (fun x => In x K2) m q).
Proof.
  apply reads_mutind.
  - intros n K p Hd _ K2 _ q Hq. apply in_app_or in Hq. destruct Hq as [Hq|[<-|[]]]; [left; exact Hq|].
    right. exists n. split; [left; constructor|]. split; [left; exact (proj1 Hd)|]. apply means_policy, Hd.
  - intros n K K' U id ai alg de t ps p Hc Hal Hid Hai Ha Hde Ht Hr IH Hp Hf K2 HK q Hq.
    apply in_app_or in Hq. destruct Hq as [Hq|[<-|[]]].
    + destruct (IH K2) with (q := q) as [H|(m & Hs & Hm)]; [|exact Hq|left; exact H|].
      { intros x Hx. apply HK, in_or_app. left. exact Hx. }
      right. exists m. split; [|exact Hm]. destruct Hs as [(k & Hk & Hi)|Hs]; [left|right; exact Hs].
      apply inside_kid with k; [apply member_elem, Hk|exact Hi].
    + right. exists n. split; [left; constructor|]. split; [right; exact Hc|].
      apply (proj1 meaning_mut n K (K' ++ [p]) U p); [|exact HK].
      eapply reads_set; eassumption.
  - intros K K2 _ q Hq. left. exact Hq.
  - intros k ks K K1 K2 U1 U2 p ps _ IH1 Hr IH2 K3 HK q Hq.
    destruct (IH2 K3 HK q Hq) as [H|(m & Hs & Hm)].
    + destruct (IH1 K3) with (q := q) as [H'|(m & Hs & Hm)]; [|exact H|left; exact H'|].
      { apply incl_tran with K2; [|exact HK]. exact (proj1 (proj1 (proj2 grows) _ _ _ _ _ Hr)). }
      right. exists m. split; [|exact Hm]. destruct Hs as [Hi|(u & d & Hu & Hd & Hi)].
      * left. exists k. split; [left; reflexivity|exact Hi].
      * right. exists u, d. split; [apply in_or_app; left; exact Hu|split; assumption].
    + right. exists m. split; [|exact Hm]. destruct Hs as [(x & Hx & Hi)|(u & d & Hu & Hd & Hi)].
      * left. exists x. split; [right; exact Hx|exact Hi].
      * right. exists u, d. split; [apply in_or_app; right; exact Hu|split; assumption].
  - intros k K K' U p _ _ IH. exact IH.
  - intros k K p _ _ K2 _ q Hq. left. exact Hq.
  - intros base k r url d K K' U q0 p _ _ _ _ _ Hd _ IH _ K2 HK q Hq.
    destruct (IH K2 HK q Hq) as [H|(m & Hs & Hm)]; [left; exact H|].
    right. exists m. split; [|exact Hm]. right. destruct Hs as [Hi|(u & d' & Hu & Hd' & Hi)].
    + exists url, d. split; [left; reflexivity|split; assumption].
    + exists u, d'. split; [right; exact Hu|split; assumption].
Qed.

(** ** Every document is fetched once *)
Lemma root_of : forall n K K' U p, reads n K K' U p -> name_of p = root_name n.
Proof.
  intros n K K' U p H. unfold root_name. destruct H as [n K p Hd _|n K K' urls id ai alg de t ps p Hc Hal Hid Hai Ha Hde Ht Hr -> Hf].
  - destruct Hd as (Hc & _ & id & ai & al & de & xp & t & rs & -> & Hid & _). rewrite Hc, Hid. reflexivity.
  - pose proof (called_elem _ _ Hc) as He. rewrite called_ln in Hc by (reflexivity || exact He).
    apply String.eqb_eq in Hc. rewrite (called_ln "Policy" n eq_refl He), Hc. cbn [String.eqb Ascii.eqb Bool.eqb].
    rewrite Hid. reflexivity.
Qed.

Lemma in_names_incl : forall (K K' : list policybase) x, incl K K' -> In x (map name_of K) -> In x (map name_of K').
Proof.
  intros K K' x H Hx. apply in_map_iff in Hx. destruct Hx as (p & <- & Hp). apply in_map, H, Hp.
Qed.

Lemma NoDup_app_disjoint : forall A (l1 l2 : list A), NoDup l1 -> NoDup l2 ->
  (forall x, In x l1 -> In x l2 -> False) -> NoDup (l1 ++ l2).
Proof.
  intros A l1 l2 H1 H2 Hd. induction H1 as [|x l1 Hx H1 IH]; [exact H2|]. cbn [app]. constructor.
  - intros H. apply in_app_or in H. destruct H as [H|H]; [exact (Hx H)|].
    exact (Hd x (or_introl eq_refl) H).
  - apply IH. intros y Hy. apply Hd. right. exact Hy.
Qed.

Lemma once_mut :
  (forall n K K' U p, reads n K K' U p -> NoDup U /\ forall u, In u U -> exists d, fetch u = Ok d /\
     ~ In (root_name d) (map name_of K) /\ In (root_name d) (map name_of K') /\ root_name d <> root_name n) /\
  (forall ks K K' U ps, reads_members ks K K' U ps -> NoDup U /\ forall u, In u U -> exists d, fetch u = Ok d /\
     ~ In (root_name d) (map name_of K) /\ In (root_name d) (map name_of K')) /\
  (forall k K K' U p, reads_member k K K' U p -> NoDup U /\ forall u, In u U -> exists d, fetch u = Ok d /\
     ~ In (root_name d) (map name_of K) /\ In (root_name d) (map name_of K')).
Proof.
  apply reads_mutind.
  - intros n K p _ _. split; [constructor|intros u []].
  - intros n K K' U id ai alg de t ps p Hc Hal Hid Hai Ha Hde Ht Hr [IH1 IH2] Hp Hf.
    split; [exact IH1|]. intros u Hu. destruct (IH2 u Hu) as (d & Hd & Hn & Hi). exists d.
    split; [exact Hd|]. split; [exact Hn|]. split.
    + apply in_names_incl with K'; [apply incl_appl, incl_refl|exact Hi].
    + intros Heq. apply Hf.
      rewrite (root_of n K (K' ++ [p]) U p) by (eapply reads_set; eassumption).
      rewrite <- Heq. exact Hi.
  - intros K. split; [constructor|intros u []].
  - intros k ks K K1 K2 U1 U2 p ps H1 [IH1 IH1'] H2 [IH2 IH2'].
    pose proof (proj1 (proj2 (proj2 grows) _ _ _ _ _ H1)) as G1.
    pose proof (proj1 (proj1 (proj2 grows) _ _ _ _ _ H2)) as G2. split.
    + apply NoDup_app_disjoint; [exact IH1|exact IH2|]. intros u Hu1 Hu2.
      destruct (IH1' u Hu1) as (d & Hd & _ & Hi). destruct (IH2' u Hu2) as (d' & Hd' & Hn & _).
      rewrite Hd in Hd'. injection Hd' as <-. exact (Hn Hi).
    + intros u Hu. apply in_app_or in Hu. destruct Hu as [Hu|Hu].
      * destruct (IH1' u Hu) as (d & Hd & Hn & Hi). exists d. split; [exact Hd|]. split; [exact Hn|].
        exact (in_names_incl _ _ _ G2 Hi).
      * destruct (IH2' u Hu) as (d & Hd & Hn & Hi). exists d. split; [exact Hd|]. split; [|exact Hi].
        intros H. apply Hn. exact (in_names_incl _ _ _ G1 H).
  - intros k K K' U p _ _ [IH1 IH2]. split; [exact IH1|]. intros u Hu.
    destruct (IH2 u Hu) as (d & Hd & Hn & Hi & _). exists d. split; [exact Hd|split; assumption].
  - intros k K p _ _. split; [constructor|intros u []].
  - intros base k r url d K K' U q p _ _ _ _ _ Hd Hr [IH1 IH2] _.
    assert (~ In (root_name d) (map name_of K)) as Hroot.
    { rewrite <- (root_of _ _ _ _ _ Hr). destruct Hr as [n K q _ Hf|n K K' U id ai alg de t ps q Hc Hal Hid Hai Ha Hde Ht Hr Hq Hf].
      - exact Hf.
      - intros H. apply Hf. revert H. apply in_names_incl. exact (proj1 (proj1 (proj2 grows) _ _ _ _ _ Hr)). }
    split.
    + constructor; [|exact IH1]. intros Hu. destruct (IH2 url Hu) as (d' & Hd' & _ & _ & Hne).
      rewrite Hd in Hd'. injection Hd' as <-. apply Hne. reflexivity.
    + intros u [<-|Hu].
      * exists d. split; [exact Hd|]. split; [exact Hroot|].
        rewrite <- (root_of _ _ _ _ _ Hr). apply in_map. exact (proj2 (proj1 grows _ _ _ _ _ Hr)).
      * destruct (IH2 u Hu) as (d' & Hd' & Hn & Hi & _). exists d'. split; [exact Hd'|split; assumption].
Qed.

(** Names stay distinct. *)
Lemma distinct_mut :
  (forall n K K' U p, reads n K K' U p -> NoDup (map name_of K) -> NoDup (map name_of K')) /\
  (forall ks K K' U ps, reads_members ks K K' U ps -> NoDup (map name_of K) -> NoDup (map name_of K')) /\
  (forall k K K' U p, reads_member k K K' U p -> NoDup (map name_of K) -> NoDup (map name_of K')).
Proof.
  apply reads_mutind; auto.
  - intros n K p _ Hf Hnd. rewrite map_app. apply NoDup_snoc. split; assumption.
  - intros n K K' U id ai alg de t ps p _ _ _ _ _ _ _ _ IH _ Hf Hnd. rewrite map_app. apply NoDup_snoc.
    split; [apply IH, Hnd|exact Hf].
Qed.

(** ** Circular references *)
Lemma cycle_mut : forall X : string -> Prop, 
  (forall n K K' U p, reads n K K' U p ->
     (forall m, occurs fetch n U m -> forall x, called "PolicySet" m = true ->
        xml_attr "PolicySetId" m = Some x -> X x ->
        exists k y, In k (elems m) /\ called "PolicySetIdReference" k = true /\ xml_text k = Some y /\ X y) ->
     (forall q x, In q K -> name_of q = SetName (Some x) -> ~ X x) ->
     forall q x, In q K' -> name_of q = SetName (Some x) -> ~ X x) /\
  (forall ks K K' U ps, reads_members ks K K' U ps ->
     (forall m, ((exists k, In k ks /\ inside m k) \/ (exists u d, In u U /\ fetch u = Ok d /\ inside m d)) ->
        forall x, called "PolicySet" m = true ->
        xml_attr "PolicySetId" m = Some x -> X x ->
        exists k y, In k (elems m) /\ called "PolicySetIdReference" k = true /\ xml_text k = Some y /\ X y) ->
     (forall q x, In q K -> name_of q = SetName (Some x) -> ~ X x) ->
     (forall q x, In q K' -> name_of q = SetName (Some x) -> ~ X x) /\
     (forall k y, In k ks -> called "PolicySetIdReference" k = true -> xml_text k = Some y -> ~ X y)) /\
  (forall k K K' U p, reads_member k K K' U p ->
     (forall m, occurs fetch k U m -> forall x, called "PolicySet" m = true ->
        xml_attr "PolicySetId" m = Some x -> X x ->
        exists k y, In k (elems m) /\ called "PolicySetIdReference" k = true /\ xml_text k = Some y /\ X y) ->
     (forall q x, In q K -> name_of q = SetName (Some x) -> ~ X x) ->
     (forall q x, In q K' -> name_of q = SetName (Some x) -> ~ X x) /\
     (forall y, called "PolicySetIdReference" k = true -> xml_text k = Some y -> ~ X y)).
Proof.
  intros X.
  assert (forall k p, called "PolicySetIdReference" k = true -> wanted k = Some (name_of p) ->
     name_of p = SetName (xml_text k)) as Href.
  { intros k p Hc Hw. pose proof (called_elem _ _ Hc) as He. rewrite wanted_ln in Hw by exact He.
    rewrite called_ln in Hc by (reflexivity || exact He). apply String.eqb_eq in Hc. rewrite Hc in Hw.
    cbn [String.eqb Ascii.eqb Bool.eqb] in Hw. congruence. }
  apply reads_mutind.
  - intros n K p Hd _ _ HK q x Hq Hn. apply in_app_or in Hq. destruct Hq as [Hq|[<-|[]]]; [exact (HK q x Hq Hn)|].
    destruct Hd as (_ & _ & id & ai & al & de & xp & t & rs & -> & _). discriminate Hn.
  - intros n K K' U id ai alg de t ps p Hc Hal Hid Hai Ha Hde Ht Hr IH Hp Hf Hm HK q x Hq Hn Hx.
    destruct IH as [IH1 IH2]; [|exact HK|].
    { intros m Hs. apply Hm. destruct Hs as [(k & Hk & Hi)|Hs]; [left|right; exact Hs].
      apply inside_kid with k; [apply member_elem, Hk|exact Hi]. }
    apply in_app_or in Hq. destruct Hq as [Hq|[<-|[]]]; [exact (IH1 q x Hq Hn Hx)|].
    rewrite Hp in Hn. cbn [name_of pm_id] in Hn. injection Hn as ->.
    destruct (Hm n) with (x := x) as (k & y & Hk & Hck & Hy & HXy); [left; constructor|exact Hc|exact Hid|exact Hx|].
    refine (IH2 k y _ Hck Hy HXy). unfold members. apply filter_In. split; [exact Hk|].
    rewrite Hck, !Bool.orb_true_r. reflexivity.
  - intros K _ HK. split; [exact HK|intros k y []].
  - intros k ks K K1 K2 U1 U2 p ps _ IH1 _ IH2 Hm HK.
    destruct IH1 as [A1 B1]; [|exact HK|].
    { intros m Hs. apply Hm. destruct Hs as [Hi|(u & d & Hu & Hd & Hi)].
      - left. exists k. split; [left; reflexivity|exact Hi].
      - right. exists u, d. split; [apply in_or_app; left; exact Hu|split; assumption]. }
    destruct IH2 as [A2 B2]; [|exact A1|].
    { intros m Hs. apply Hm. destruct Hs as [(x & Hx & Hi)|(u & d & Hu & Hd & Hi)].
      - left. exists x. split; [right; exact Hx|exact Hi].
      - right. exists u, d. split; [apply in_or_app; right; exact Hu|split; assumption]. }
    split; [exact A2|]. intros k' y [<-|Hk']; [apply B1|apply B2, Hk'].
  - intros k K K' U p Hw Hr IH Hm HK. split; [apply IH; assumption|].
    intros y Hc. exfalso. pose proof (called_elem _ _ Hc) as He. rewrite wanted_ln in Hw by exact He.
    rewrite called_ln in Hc by (reflexivity || exact He). apply String.eqb_eq in Hc. rewrite Hc in Hw. discriminate Hw.
  - intros k K p Hw Hp _ HK. split; [exact HK|]. intros y Hc Hy. apply HK with p; [exact Hp|].
    rewrite (Href k p Hc Hw), Hy. reflexivity.
  - intros base k r url d K K' U q p _ _ Hw _ _ Hd _ IH Hp Hm HK.
    assert (forall q x, In q K' -> name_of q = SetName (Some x) -> ~ X x) as HK'.
    { apply IH; [|exact HK]. intros m Hs. apply Hm. right. destruct Hs as [Hi|(u & d' & Hu & Hd' & Hi)].
      - exists url, d. split; [left; reflexivity|split; assumption].
      - exists u, d'. split; [right; exact Hu|split; assumption]. }
    split; [exact HK'|]. intros y Hc Hy. apply HK' with p; [exact Hp|].
    rewrite (Href k p Hc Hw), Hy. reflexivity.
Qed.
End Reads.

(** ** The recursion limit *)
Definition settled {A} (r : res A) : Prop := r <> Raise ERecursionError.
Definition agrees {A B} (f g : A -> B -> res (policybase * B)) : Prop :=
  forall a b, settled (f a b) -> g a b = f a b.

Lemma settled_bind : forall A B (m : res A) (f : A -> res B), settled (bind m f) ->
  settled m /\ forall x, m = Ok x -> settled (f x).
Proof.
  intros A B m f H. destruct m as [x|e].
  - split; [discriminate|]. intros y [= <-]. exact H.
  - split; [|discriminate]. intros He. apply H. injection He as ->. reflexivity.
Qed.

Lemma follow : forall A B (m m' : res A) (f f' : A -> res B), settled (bind m f) ->
  (settled m -> m' = m) -> (forall x, settled (f x) -> f' x = f x) -> bind m' f' = bind m f.
Proof.
  intros A B m m' f f' H Hm Hf. apply settled_bind in H. destruct H as [H1 H2]. rewrite (Hm H1).
  destruct m as [x|e]; [|reflexivity]. exact (Hf x (H2 x eq_refl)).
Qed.

Section Limit.
Variable E : renv.
Variable fetch : string -> res node.
Variable fd : finder.

Lemma agrees_reference : forall f g base ref st, agrees f g ->
  settled (find_from_reference fetch f base ref st) ->
  find_from_reference fetch g base ref st = find_from_reference fetch f base ref st.
Proof.
  intros f g base [r|] st0 Ha H; [|reflexivity]. unfold find_from_reference in *.
  apply follow; [exact H|reflexivity|]. clear H. intros url H.
  apply follow; [exact H|reflexivity|]. clear H. intros d H.
  apply follow; [exact H|apply Ha|reflexivity].
Qed.

Lemma agrees_find_policy : forall f g ref st, agrees f g ->
  settled (find_policy fetch fd f ref st) -> find_policy fetch fd g ref st = find_policy fetch fd f ref st.
Proof.
  intros f g ref st Ha. unfold find_policy. destruct fd as [|base]; [reflexivity|]. intros H.
  apply follow; [exact H| |reflexivity].
  destruct (key_get ref (rg_policies (fs_reg st))) as [p|]; [reflexivity|].
  apply agrees_reference, Ha.
Qed.

Lemma agrees_find_set : forall f g ref st, agrees f g ->
  settled (find_policy_set fetch fd f ref st) ->
  find_policy_set fetch fd g ref st = find_policy_set fetch fd f ref st.
Proof.
  intros f g ref st Ha. unfold find_policy_set. destruct fd as [|base]; [reflexivity|]. intros H.
  apply follow; [exact H| |reflexivity].
  destruct (key_get ref (rg_sets (fs_reg st))) as [p|]; [reflexivity|].
  apply agrees_reference, Ha.
Qed.

Lemma agrees_step : forall f g k, agrees f g ->
  (forall st, settled (read_set E fetch fd f k st) -> read_set E fetch fd g k st = read_set E fetch fd f k st) ->
  forall s, settled (set_step E fetch fd f s k) -> set_step E fetch fd g s k = set_step E fetch fd f s k.
Proof.
  intros f g k Ha IH [a st0]. unfold set_step.
  destruct (String.eqb (ln k) "Description"); [reflexivity|].
  destruct (String.eqb (ln k) "PolicySetDefaults"); [reflexivity|].
  destruct (String.eqb (ln k) "Target"); [reflexivity|].
  destruct (String.eqb (ln k) "CombinerParameters"); [reflexivity|].
  destruct (String.eqb (ln k) "PolicyCombinerParameters"); [reflexivity|].
  destruct (String.eqb (ln k) "PolicySetCombinerParameters"); [reflexivity|].
  destruct (String.eqb (ln k) "VariableDefinition"); [reflexivity|].
  destruct (String.eqb (ln k) "Policy"); [reflexivity|].
  destruct (String.eqb (ln k) "PolicyIdReference").
  { intros H. apply follow; [exact H|apply agrees_find_policy, Ha|reflexivity]. }
  destruct (String.eqb (ln k) "PolicySet").
  { intros H. apply follow; [exact H|apply IH|reflexivity]. }
  destruct (String.eqb (ln k) "PolicySetIdReference"); [|reflexivity].
  intros H. apply follow; [exact H|apply agrees_find_set, Ha|reflexivity].
Qed.

Lemma foldM_cons : forall A B (h : A -> B -> res A) x xs a,
  foldM h (x :: xs) a = bind (h a x) (fun a' => foldM h xs a').
Proof. reflexivity. Qed.

Lemma agrees_fold : forall A B (h h' : A -> B -> res A) ks,
  (forall k, In k ks -> forall s, settled (h s k) -> h' s k = h s k) ->
  forall s, settled (foldM h ks s) -> foldM h' ks s = foldM h ks s.
Proof.
  intros A B h h'. induction ks as [|k ks IH]; intros Hk s; [reflexivity|]. rewrite !foldM_cons. intros H.
  apply follow; [exact H|apply Hk; left; reflexivity|]. apply IH. intros x Hx. apply Hk. right. exact Hx.
Qed.

Lemma agrees_members : forall f g n, is_elem n -> agrees f g ->
  (forall k, In k (elems n) -> forall st, settled (read_set E fetch fd f k st) ->
    read_set E fetch fd g k st = read_set E fetch fd f k st) ->
  forall st, settled (read_set E fetch fd f n st) -> read_set E fetch fd g n st = read_set E fetch fd f n st.
Proof.
  intros f g n He Ha IH st.
  rewrite (read_set_eq E fetch fd f n st He), (read_set_eq E fetch fd g n st He).
  destruct (negb (String.eqb (ln n) "PolicySet")); [reflexivity|]. intros H.
  apply follow; [exact H|reflexivity|]. clear H. intros id H.
  apply follow; [exact H|reflexivity|]. clear H. intros ai H.
  apply follow; [exact H|reflexivity|]. clear H. intros alg H.
  apply follow; [exact H| |reflexivity].
  apply agrees_fold. intros k Hk. apply agrees_step; [exact Ha|apply IH, Hk].
Qed.

Lemma agrees_set : forall f g, agrees f g -> agrees (read_set E fetch fd f) (read_set E fetch fd g).
Proof.
  intros f g Ha. intros n. induction n as [t|tag at_ tx kids IH] using node_ind'; [reflexivity|].
  apply agrees_members; [exact I|exact Ha|]. intros k Hk.
  rewrite Forall_forall in IH. apply IH. apply filter_In in Hk. apply Hk.
Qed.

Lemma read_doc_S : forall l n st, read_doc (S l) E fetch fd n st =
  bind (local_name n) (fun x =>
    if String.eqb x "Policy" then read_policy_reg E n st
    else if String.eqb x "PolicySet" then read_set E fetch fd (read_doc l E fetch fd) n st
    else Raise EXMLParseError).
Proof. reflexivity. Qed.

Lemma agrees_doc : forall l l', l <= l' -> agrees (read_doc l E fetch fd) (read_doc l' E fetch fd).
Proof.
  induction l as [|l IH]; intros l' Hl d st; [intros H; destruct H; reflexivity|].
  destruct l' as [|l']; [inversion Hl|]. apply le_S_n in Hl. rewrite !read_doc_S. intros H.
  apply follow; [exact H|reflexivity|]. clear H. intros x.
  destruct (String.eqb x "Policy"); [reflexivity|]. destruct (String.eqb x "PolicySet"); [|reflexivity].
  apply agrees_set, IH, Hl.
Qed.
End Limit.

(** ** Canonical documents of policy sets *)
Section WriteSet.
Variable E : renv.
Hypothesis HE : default_readers E.
Variable fetch : string -> res node.
Variable fd : finder.
Variable ns : option string.

Lemma member_policy : forall p, is_member (write_policy ns p) = true.
Proof.
  intros p. unfold is_member. destruct p as [m t a rs|m t a ps]; cbn [write_policy].
  - rewrite (called_el ns "Policy" "Policy") by reflexivity. reflexivity.
  - rewrite (called_el ns "PolicySet" "PolicySet") by reflexivity. rewrite Bool.orb_true_r. reflexivity.
Qed.

Lemma wanted_policy : forall p, wanted (write_policy ns p) = None.
Proof.
  intros p. rewrite wanted_ln by apply policy_is. destruct p as [m t a rs|m t a ps]; cbn [write_policy];
    rewrite ln_el by reflexivity; reflexivity.
Qed.

Lemma NoDup_app_split : forall A (l1 l2 : list A), NoDup (l1 ++ l2) ->
  NoDup l1 /\ NoDup l2 /\ forall x, In x l1 -> ~ In x l2.
Proof.
  intros A l1 l2. induction l1 as [|x l1 IH]; intros H; cbn [app] in H.
  - split; [constructor|]. split; [exact H|]. intros x [].
  - inversion H as [|? ? Hx H']; subst. destruct (IH H') as (H1 & H2 & H3). split.
    + constructor; [|exact H1]. intros Hi. apply Hx, in_or_app. left. exact Hi.
    + split; [exact H2|]. intros y [<-|Hy]; [|apply H3, Hy]. intros Hi. apply Hx, in_or_app. right. exact Hi.
Qed.

Lemma write_reads : forall p, writable E p -> forall K, NoDup (map name_of (K ++ all_policies p)) ->
  reads E fetch fd (write_policy ns p) K (K ++ all_policies p) [] p.
Proof.
  induction p as [m t alg rules|m t alg ps IH] using policybase_ind'; intros Hw K Hnd.
  - cbn [all_policies] in *. apply reads_policy; [apply write_policy_doc, Hw; exact HE|].
    rewrite map_app in Hnd. cbn [map] in Hnd. apply NoDup_snoc in Hnd. apply Hnd.
  - inversion Hw as [|? ? ? ? Hm Hx Ha Ht Hps]; subst.
    destruct m as [id ve ai d xp]. destruct Hm as (Hid & Hai & (v & Hv & Hv0) & Hd).
    cbn [pm_id pm_version pm_algId pm_description pm_xpathVersion] in *. subst ve xp.
    destruct id as [id|]; [|congruence]. destruct ai as [ai|]; [|congruence].
    destruct (Ha ai eq_refl) as [Hal Han]. destruct alg as [alg|]; [|congruence].
    cbn [all_policies] in *. rewrite app_assoc in *.
    cbn [write_policy pm_id pm_version pm_algId pm_description pm_xpathVersion opt_attr app].
    set (kids := opt_el (write_description ns) d ++ opt_el (write_target ns) t ++ map (write_policy ns) ps).
    assert (forall k, In k kids -> is_elem k) as Hel.
    { intros k Hk. unfold kids in Hk. apply in_app_or in Hk. destruct Hk as [Hk|Hk]; [revert Hk; apply opt_el_is; intros; exact I|].
      apply in_app_or in Hk. destruct Hk as [Hk|Hk]; [revert Hk; apply opt_el_is; intros; exact I|].
      revert Hk; apply map_el_is, policy_is. }
    assert (forall s, has_char close_brace s = false -> String.eqb "Policy" s = false -> String.eqb "PolicySet" s = false ->
      filter (called s) kids =
      (if String.eqb "Description" s then opt_el (write_description ns) d else []) ++
      (if String.eqb "Target" s then opt_el (write_target ns) t else [])) as HF.
    { intros s Hs Hs1 Hs2. unfold kids. rewrite !filter_app.
      rewrite (filter_opt_called _ (write_description ns) s (String.eqb "Description" s))
        by (intros; apply called_el; [exact Hs|reflexivity]).
      rewrite (filter_opt_called _ (write_target ns) s (String.eqb "Target" s))
        by (intros; apply called_el; [exact Hs|reflexivity]).
      rewrite (filter_map_called _ (write_policy ns) s false).
      2:{ intros [m0 t0 a0 r0|m0 t0 a0 p0]; cbn [write_policy]; rewrite called_el by (exact Hs || reflexivity); assumption. }
      rewrite app_nil_r. reflexivity. }
    rewrite map_app in Hnd. cbn [map] in Hnd. apply NoDup_snoc in Hnd. destruct Hnd as [Hnd Hfresh].
    eapply reads_set with (id := id) (algId := ai) (alg := alg) (description := d) (target := t) (ps := ps).
    + rewrite called_el; reflexivity.
    + unfold allowed_in_set. rewrite elems_el by exact Hel. intros k Hk. unfold kids in Hk.
      apply in_app_or in Hk. destruct Hk as [Hk|Hk].
      { exists "Description". split; [left; reflexivity|]. apply in_opt_el in Hk. destruct Hk as (y & _ & ->).
        unfold write_description. rewrite called_el; reflexivity. }
      apply in_app_or in Hk. destruct Hk as [Hk|Hk].
      { exists "Target". split; [right; left; reflexivity|]. apply in_opt_el in Hk. destruct Hk as (y & _ & ->).
        unfold write_target. rewrite called_el; reflexivity. }
      apply in_map_iff in Hk. destruct Hk as ([m0 t0 a0 r0|m0 t0 a0 p0] & <- & _); cbn [write_policy].
      * exists "Policy". split; [cbn; tauto|]. rewrite called_el; reflexivity.
      * exists "PolicySet". split; [cbn; tauto|]. rewrite called_el; reflexivity.
    + reflexivity.
    + reflexivity.
    + symmetry. exact Hal.
    + apply description_iff. rewrite elems_el by exact Hel. apply (description_written ns); [exact Hd|].
      rewrite HF by reflexivity. cbn [String.eqb Ascii.eqb Bool.eqb]. apply app_nil_r.
    + unfold elems_called. rewrite elems_el by exact Hel. rewrite HF by reflexivity.
      cbn [String.eqb Ascii.eqb Bool.eqb app]. apply last_one_opt. intros x Hxx. apply write_target_doc, Ht, Hxx.
    + rewrite members_eq, elems_el by exact Hel.
      assert (filter is_member kids = map (write_policy ns) ps) as ->.
      { unfold kids. rewrite !filter_app.
        assert (forall A (w : A -> node) o, (forall x, is_member (w x) = false) -> filter is_member (opt_el w o) = []) as HO.
        { intros A w [x|] H; [|reflexivity]. cbn [opt_el filter]. rewrite H. reflexivity. }
        rewrite !HO.
        2:{ intros x. unfold is_member, write_target. rewrite !called_el by reflexivity. reflexivity. }
        2:{ intros x. unfold is_member, write_description. rewrite !called_el by reflexivity. reflexivity. }
        cbn [app]. clear. induction ps as [|p ps IHp]; [reflexivity|].
        cbn [map filter]. rewrite member_policy, IHp. reflexivity. }
      clear HF Hel kids Hfresh Hw Hid Hai Ha. revert K Hnd. induction ps as [|p ps IHp]; intros K Hnd.
      { cbn [map flat_map]. rewrite app_nil_r. constructor. }
      inversion IH as [|? ? IHq IHps]; subst. inversion Hps as [|? ? Wq Wps]; subst.
      cbn [map flat_map] in *. rewrite app_assoc in *.
      assert (NoDup (map name_of (K ++ all_policies p))) as Hnd1.
      { rewrite map_app in Hnd. apply NoDup_app_split in Hnd. apply Hnd. }
      apply (reads_more E fetch fd _ _ K (K ++ all_policies p) _ [] [] p ps).
      * apply reads_inline; [apply wanted_policy|]. apply IHq; assumption.
      * apply IHp; assumption.
    + unfold version_doc. rewrite attr_el. cbn [dict_get String.eqb Ascii.eqb Bool.eqb].
      destruct v as [|c v]; [congruence|reflexivity].
    + exact Hfresh.
Qed.
End WriteSet.

(** ** Only writable policies are read, sets included *)
Lemma reads_writable : forall E fetch fd, (forall u d, fetch u = Ok d -> parsed d) ->
  (forall n K K' U p, reads E fetch fd n K K' U p -> parsed n -> Forall (writable E) K -> Forall (writable E) K') /\
  (forall ks K K' U ps, reads_members E fetch fd ks K K' U ps -> Forall parsed ks -> Forall (writable E) K ->
     Forall (writable E) K') /\
  (forall k K K' U p, reads_member E fetch fd k K K' U p -> parsed k -> Forall (writable E) K ->
     Forall (writable E) K').
Proof.
  intros E fetch fd Hf. apply reads_mutind.
  - intros n K p Hd _ Hp HK. apply Forall_app. split; [exact HK|]. constructor; [|constructor].
    exact (policy_writable E n p Hp Hd).
  - intros n K K' U id ai alg de t ps p Hc Hal Hid Hai Ha Hde Ht Hr IH Hp _ Hpn HK.
    assert (Forall (writable E) K') as HK'.
    { apply IH; [|exact HK]. apply Forall_forall. intros k Hk. apply (parsed_elems n); [exact Hpn|].
      apply member_elem, Hk. }
    apply Forall_app. split; [exact HK'|]. constructor; [|constructor]. subst p. apply wr_set.
    + split; [discriminate|]. split; [discriminate|]. split; [|exact (description_writable _ _ Hde)].
      exists (version_doc n). split; [reflexivity|apply version_not_empty].
    + reflexivity.
    + intros id' [= <-]. rewrite Ha. split; [reflexivity|discriminate].
    + intros t' ->. apply last_one_in in Ht. destruct Ht as (k & Hk & Ht).
      apply target_writable in Ht; [exact Ht|]. exact (parsed_elems _ _ Hpn (in_called _ _ _ Hk)).
    + apply Forall_forall. intros q Hq. rewrite Forall_forall in HK'. apply HK'.
      apply (proj2 (proj1 (proj2 (grows E fetch fd)) _ _ _ _ _ Hr)), Hq.
  - intros K _ HK. exact HK.
  - intros k ks K K1 K2 U1 U2 p ps _ IH1 _ IH2 Hp HK. inversion Hp; subst. auto.
  - intros k K K' U p _ _ IH. exact IH.
  - intros k K p _ _ _ HK. exact HK.
  - intros base k r url d K K' U q p _ _ _ _ _ Hd _ IH _ _ HK. apply IH; [exact (Hf _ _ Hd)|exact HK].
Qed.

(** ** Small facts for the statements *)
Lemma Forall2_in_l : forall A B (R : A -> B -> Prop) l l', Forall2 R l l' ->
  forall a, In a l -> exists b, In b l' /\ R a b.
Proof.
  intros A B R l l' H. induction H as [|a b l l' Hab _ IH]; intros x [].
  - subst x. exists b. split; [left; reflexivity|exact Hab].
  - destruct (IH x H) as (y & Hy & HR). exists y. split; [right; exact Hy|exact HR].
Qed.

Lemma local_mut : forall E fetch fd, fd = LocalFinder ->
  (forall n K K' U p, reads E fetch fd n K K' U p -> U = []) /\
  (forall ks K K' U ps, reads_members E fetch fd ks K K' U ps -> U = []) /\
  (forall k K K' U p, reads_member E fetch fd k K K' U p -> U = []).
Proof.
  intros E fetch fd Hl. apply reads_mutind; auto.
  - intros. subst. reflexivity.
  - intros base k r url d K K' U q p Hfd. rewrite Hl in Hfd. discriminate Hfd.
Qed.

Lemma policy_set_differ : forall d, called "Policy" d = true -> called "PolicySet" d = true -> False.
Proof.
  intros d H1 H2. pose proof (called_elem _ _ H1) as He.
  rewrite called_ln in H1 by (reflexivity || exact He). rewrite called_ln in H2 by (reflexivity || exact He).
  apply String.eqb_eq in H1. rewrite H1 in H2. discriminate H2.
Qed.

Lemma wanted_policy_none : forall k, called "Policy" k = true \/ called "PolicySet" k = true -> wanted k = None.
Proof.
  intros k [H|H]; pose proof (called_elem _ _ H) as He; rewrite wanted_ln by exact He;
    rewrite called_ln in H by (reflexivity || exact He); apply String.eqb_eq in H; rewrite H; reflexivity.
Qed.

Lemma means_root : forall E known m q, called "Policy" m = true \/ called "PolicySet" m = true ->
  doc_means E known m q -> name_of q = root_name m.
Proof.
  intros E known m q Hc H. unfold root_name. inversion H as [? ? Hd|? id ai alg de t ps Hs _ Hid|? ? Hw _]; subst.
  - destruct Hd as (Hp & _ & id & ai & al & de & xp & t & rs & -> & Hid & _). rewrite Hp, Hid. reflexivity.
  - destruct (called "Policy" m) eqn:Ep; [destruct (policy_set_differ m Ep Hs)|]. rewrite Hid. reflexivity.
  - rewrite (wanted_policy_none m Hc) in Hw. discriminate Hw.
Qed.

Lemma holding_in : forall K p, In p K <->
  In p (map snd (rg_policies (holding K))) \/ In p (map snd (rg_sets (holding K))).
Proof.
  intros K p. unfold holding. cbn [rg_policies rg_sets]. rewrite !map_map. cbn [snd]. rewrite !map_id, !filter_In.
  destruct p; intuition.
Qed.

Lemma holding_same : forall K K', holding K' = holding K -> forall p, In p K -> In p K'.
Proof. intros K K' H p Hp. apply holding_in. rewrite H. apply holding_in, Hp. Qed.

Lemma fetched_again : forall E fetch fd d K K' U p F, reads E fetch fd d K K' U p -> NoDup F ->
  (forall u, In u F -> exists d', fetch u = Ok d' /\ In (root_name d') (map name_of K)) ->
  NoDup (F ++ U) /\
  (forall u, In u (F ++ U) -> exists d', fetch u = Ok d' /\ In (root_name d') (map name_of K')).
Proof.
  intros E fetch fd d K K' U p F Hr HF Hin. destruct (proj1 (once_mut E fetch fd) _ _ _ _ _ Hr) as [HU Hu].
  pose proof (proj1 (proj1 (grows E fetch fd) _ _ _ _ _ Hr)) as G. split.
  - apply NoDup_app_disjoint; [exact HF|exact HU|]. intros u H1 H2.
    destruct (Hin u H1) as (d1 & Hd1 & Hi). destruct (Hu u H2) as (d2 & Hd2 & Hn & _).
    rewrite Hd1 in Hd2. injection Hd2 as <-. exact (Hn Hi).
  - intros u H. apply in_app_or in H. destruct H as [H|H].
    + destruct (Hin u H) as (d1 & Hd1 & Hi). exists d1. split; [exact Hd1|]. exact (in_names_incl _ _ _ G Hi).
    + destruct (Hu u H) as (d2 & Hd2 & _ & Hi & _). exists d2. split; assumption.
Qed.
