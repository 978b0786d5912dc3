(** C109: referring to documents and including them. *)
From Verif Require Import Readers SpecText SpecSetters SpecRead SpecBundle Sample.
From Verif Require Import ReadFacts ReadFacts2 ReadFacts3 ReadFacts4 BundleFacts PropertiesRead.

(** ** C109 *)

(** If a document that includes others is accepted, then so is the one that refers to
    them: as the same policy, and with the same policies known afterwards.  At most
    more documents are fetched. *)
Theorem C109_included : forall E fetch base limit K F n n' p st,
  default_readers E -> NoDup (map name_of K) -> included fetch base n n' ->
  read_doc limit E fetch (UrlFinder base) n' (mkFstate (holding K) F) = Ok (p, st) ->
  exists limit' urls,
    read_doc limit' E fetch (UrlFinder base) n (mkFstate (holding K) F) =
      Ok (p, mkFstate (fs_reg st) (F ++ urls)) /\
    incl (fs_fetched st) (F ++ urls).
Proof.
  intros E fetch base limit K F n n' p st HE HK Hi H.
  destruct (doc_sound E HE fetch (UrlFinder base) limit n' K F p st H) as (K' & U & Hr & ->).
  destruct (proj1 (unbundle E fetch base) _ _ _ _ _ Hr _ Hi) as (U0 & Hr0 & HI).
  destruct (proj1 (complete_mut E HE fetch (UrlFinder base)) _ _ _ _ _ Hr0 HK) as (_ & L & HL).
  exists L, U0. split; [apply HL; constructor|]. cbn [fs_fetched].
  apply incl_app; [apply incl_appl, incl_refl|apply incl_appr; exact HI].
Qed.

(** So if both are accepted, they are the same policy. *)
Theorem C109_same : forall E fetch base limit limit' K F n n' p p' st st',
  default_readers E -> NoDup (map name_of K) -> included fetch base n n' ->
  read_doc limit E fetch (UrlFinder base) n (mkFstate (holding K) F) = Ok (p, st) ->
  read_doc limit' E fetch (UrlFinder base) n' (mkFstate (holding K) F) = Ok (p', st') ->
  p' = p /\ fs_reg st' = fs_reg st.
Proof.
  intros E fetch base limit limit' K F n n' p p' st st' HE HK Hi H H'.
  destruct (C109_included E fetch base limit' K F n n' p' st' HE HK Hi H') as (l0 & U & H0 & _).
  pose proof (C47_limit_independent E fetch (UrlFinder base) limit l0 n (mkFstate (holding K) F)) as X.
  rewrite H, H0 in X. assert (Y : Ok (p, st) = Ok (p', mkFstate (fs_reg st') (F ++ U))) by (apply X; discriminate).
  injection Y as -> ->. split; reflexivity.
Qed.

(** Every document accepted can be bundled: there is a document that includes what it
    fetched, and that any finder reads as the same policy without fetching
    anything. *)
Theorem C109_bundle : forall E fetch base limit K F n p st,
  default_readers E -> NoDup (map name_of K) -> well_addressed fetch base n ->
  read_doc limit E fetch (UrlFinder base) n (mkFstate (holding K) F) = Ok (p, st) ->
  exists n', included fetch base n n' /\
    forall fetch' fd', exists limit',
      read_doc limit' E fetch' fd' n' (mkFstate (holding K) F) = Ok (p, mkFstate (fs_reg st) F).
Proof.
  intros E fetch base limit K F n p st HE HK Hw H.
  destruct (doc_sound E HE fetch (UrlFinder base) limit n K F p st H) as (K' & U & Hr & ->).
  destruct (proj1 (bundle E fetch base (fun k => inside k n \/ (exists u m, fetch u = Ok m /\ inside k m))
    (fun u d m Hf Hm => or_intror (ex_intro _ u (ex_intro _ d (conj Hf Hm)))) Hw) _ _ _ _ _ Hr (fun m Hm => or_introl Hm)) as (n' & Hi & R).
  exists n'. split; [exact Hi|]. intros fetch' fd'.
  destruct (proj1 (complete_mut E HE fetch' fd') _ _ _ _ _ (R fetch' fd') HK) as (_ & L & HL).
  exists L. rewrite (HL L (le_n L) F), app_nil_r. reflexivity.
Qed.

(** Replacing references is not always accepted: of two references to one policy only
    the first may be replaced. *)
Theorem C109_twice_refuted : exists fetch base n n' p st,
  included fetch base n n' /\
  read_doc 3 std_renv fetch (UrlFinder base) n fstate0 = Ok (p, st) /\
  forall limit, exists e, read_doc limit std_renv fetch (UrlFinder base) n' fstate0 = Raise e.
Proof.
  exists web, None, (d_set "main" [d_pref "http://x/p"; d_pref "http://x/p"]),
    (d_set "main" [d_policy "http://x/p" [d_rule "a"]; d_policy "http://x/p" [d_rule "a"]]).
  eexists. eexists. split; [|split; [vm_compute; reflexivity|]].
  - apply included_set; [reflexivity|]. constructor; [|constructor; [|constructor]];
      (eapply (child_replaced web None _ "http://x/p"); [reflexivity|vm_compute; reflexivity|vm_compute; reflexivity|left; reflexivity|reflexivity|apply included_same]).
  - intros limit.
    destruct (read_doc limit std_renv web (UrlFinder None) (d_set "main" [d_policy "http://x/p" [d_rule "a"]; d_policy "http://x/p" [d_rule "a"]]) fstate0)
      as [[p st]|e] eqn:H; [exfalso|eauto].
    assert (X : read_doc 3 std_renv web (UrlFinder None) (d_set "main" [d_policy "http://x/p" [d_rule "a"]; d_policy "http://x/p" [d_rule "a"]]) fstate0
      = Ok (p, st)).
    { rewrite <- H. apply C47_limit_independent; [vm_compute; discriminate|rewrite H; discriminate]. }
    vm_compute in X. discriminate.
Qed.

(** A web whose document at "http://x/q" has the policy of that id inside. *)
Definition web_inside (url : string) : res node :=
  if String.eqb url "http://x/q" then Ok (d_set "box" [d_policy "http://x/q" [d_rule "a"]])
  else Raise (EOther 7).
(** A document that refers to it is accepted, but cannot be bundled. *)
Theorem C109_misaddressed_refuted : exists fetch base n p st,
  read_doc 3 std_renv fetch (UrlFinder base) n fstate0 = Ok (p, st) /\
  forall n', included fetch base n n' ->
    forall limit, exists e, read_doc limit std_renv fetch LocalFinder n' fstate0 = Raise e.
Proof.
  exists web_inside, None, (d_set "main" [d_pref "http://x/q"]). eexists. eexists.
  split; [vm_compute; reflexivity|]. intros n' Hi limit.
  assert (n' = d_set "main" [d_pref "http://x/q"]) as ->.
  { inversion Hi as [|? ? ? ? kids' _ Hk]; subst; [reflexivity|]. unfold d_set, xe. f_equal.
    inversion Hk as [|? k' ? l Hk1 Hk2]; subst. inversion Hk2; subst. f_equal.
    inversion Hk1 as [? ? H|? r url d ? Ht Hu Hf Hd Hw H]; subst.
    - inversion H as [|? ? ? ? ks Hc _]; subst; [reflexivity|discriminate Hc].
    - exfalso. injection Ht as <-. vm_compute in Hu. injection Hu as <-. vm_compute in Hf. injection Hf as <-.
      vm_compute in Hw. discriminate. }
  destruct (read_doc limit std_renv web_inside LocalFinder (d_set "main" [d_pref "http://x/q"]) fstate0)
    as [[p st]|e] eqn:H; [exfalso|eauto].
  assert (X : read_doc 3 std_renv web_inside LocalFinder (d_set "main" [d_pref "http://x/q"]) fstate0 = Ok (p, st)).
  { rewrite <- H. apply C47_limit_independent; [vm_compute; discriminate|rewrite H; discriminate]. }
  vm_compute in X. discriminate.
Qed.

(** A document with references to a policy set, to a policy that this refers to, and
    to a policy of its own; the set included, and the policy within the set. *)
Definition d_bundle : node :=
  d_set "main" [d_policy "p1" [d_rule "a"]; d_set "http://x/s" [d_policy "http://x/p" [d_rule "a"]];
                d_pref "http://x/p"; d_set "inner" [d_pref "p1"]].
Example C109_case : exists p st st',
  included web None d_main d_bundle /\
  read_doc 3 std_renv web (UrlFinder None) d_main fstate0 = Ok (p, st) /\
  read_doc 3 std_renv web LocalFinder d_bundle fstate0 = Ok (p, st') /\
  fs_reg st' = fs_reg st /\ fs_fetched st = ["http://x/s"; "http://x/p"] /\ fs_fetched st' = [].
Proof.
  eexists. eexists. eexists. split; [|split; [vm_compute; reflexivity|split; [vm_compute; reflexivity|repeat split]]].
  apply included_set; [reflexivity|].
  constructor; [apply child_inside, included_same|]. constructor.
  - eapply (child_replaced web None _ "http://x/s"); [reflexivity|vm_compute; reflexivity|vm_compute; reflexivity|right; reflexivity|reflexivity|].
    apply included_set; [reflexivity|]. constructor; [|constructor].
    eapply (child_replaced web None _ "http://x/p"); [reflexivity|vm_compute; reflexivity|vm_compute; reflexivity|left; reflexivity|reflexivity|apply included_same].
  - repeat constructor.
Qed.
(** A web where each document is at its own address. *)
Definition web_own (url : string) : res node :=
  if String.eqb url "http://x/p" then Ok (Elem "Policy" [("PolicyId", "http://x/p"); ("RuleCombiningAlgId", deny_overrides)] None [])
  else Raise (EOther 7).
Example C109_addressed_case :
  well_addressed web_own None (d_set "main" [d_pref "http://x/p"]) /\
  exists p st, read_doc 3 std_renv web_own (UrlFinder None) (d_set "main" [d_pref "http://x/p"]) fstate0 = Ok (p, st).
Proof.
  split; [|eexists; eexists; vm_compute; reflexivity].
  intros k r url d Hk Hw Ht Hu Hf.
  assert (k = d_pref "http://x/p") as ->.
  { destruct Hk as [Hk|(u & m & Hm & Hk)].
    - inversion Hk as [|? c Hc Hi]; subst; [exfalso; apply Hw; reflexivity|]. cbn in Hc. destruct Hc as [<-|[]].
      inversion Hi as [|? c Hc _]; subst; [reflexivity|destruct Hc].
    - unfold web_own in Hm. destruct (String.eqb u "http://x/p"); [|discriminate]. injection Hm as <-.
      inversion Hk as [|? c Hc _]; subst; [exfalso; apply Hw; reflexivity|destruct Hc]. }
  injection Ht as <-. vm_compute in Hu. injection Hu as <-. vm_compute in Hf. injection Hf as <-. reflexivity.
Qed.

Print Assumptions C109_included.
Print Assumptions C109_same.
Print Assumptions C109_bundle.
Print Assumptions C109_twice_refuted.
Print Assumptions C109_misaddressed_refuted.
