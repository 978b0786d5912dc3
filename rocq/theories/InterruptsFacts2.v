(** Lemmas for C98: the moments of the program that reads a document. *)
From Verif Require Import Interrupts SpecText SpecSetters SpecRead SpecSources SpecFinderThreads SpecInterrupts.
From Verif Require Import EvalFacts StringFacts SettersFacts TextFacts ReadFacts ReadFacts2 ReadFacts3 ReadFacts4.
From Verif Require Import SourcesFacts SourcesFacts2 FinderThreadsFacts FinderThreadsFacts2 InterruptsFacts.
From Coq Require Import Lia.
Local Open Scope list_scope.

(** ** Moments of a program *)
Section Moment.
Variable web : list string -> string -> res node.
Fixpoint moment {A} (x : FT A) (s s' : fstate) : Prop :=
  s' = s \/
  match x with
  | FDone _ => False
  | FLook m k c => moment (c (key_get k (map_at m (fs_reg s)))) s s'
  | FPut m k p c => moment c (mkFstate (put_at m k p (fs_reg s)) (fs_fetched s)) s'
  | FFetch u c => moment (c (web (fs_fetched s) u)) (mkFstate (fs_reg s) (fs_fetched s ++ [u])) s'
  end.
Lemma moment_here : forall A (x : FT A) s, moment x s s.
Proof. intros A [r|m k c|m k p c|u c] s; left; reflexivity. Qed.
Lemma moment_ret : forall A (r : res A) s s', moment (FDone r) s s' -> s' = s.
Proof. intros A r s s' [H|[]]; exact H. Qed.
Lemma moment_end : forall A (x : FT A) s, moment x s (snd (run_alone_f web x s)).
Proof.
  intros A x. induction x as [r|m k c IH|m k p c IH|u c IH]; intros s; cbn [run_alone_f moment]; [left; reflexivity|right; apply IH..].
Qed.
Lemma moment_then : forall A B (x : FT A) (f : res A -> FT B) s s', moment (then_f x f) s s' ->
  moment x s s' \/ exists r s1, run_alone_f web x s = (r, s1) /\ moment (f r) s1 s'.
Proof.
  intros A B x f. induction x as [r|m k c IH|m k p c IH|u c IH]; intros s s' H; cbn [then_f moment run_alone_f] in *.
  - right. exists r, s. auto.
  - destruct H as [->|H]; [left; left; reflexivity|]. destruct (IH _ _ _ H) as [H'|H']; [left; right; exact H'|right; exact H'].
  - destruct H as [->|H]; [left; left; reflexivity|]. destruct (IH _ _ H) as [H'|H']; [left; right; exact H'|right; exact H'].
  - destruct H as [->|H]; [left; left; reflexivity|]. destruct (IH _ _ _ H) as [H'|H']; [left; right; exact H'|right; exact H'].
Qed.
Lemma moment_bind : forall A B (x : FT A) (f : A -> FT B) s s', moment (bind_f x f) s s' ->
  moment x s s' \/ exists a s1, run_alone_f web x s = (Ok a, s1) /\ moment (f a) s1 s'.
Proof.
  intros A B x f s s' H. apply moment_then in H. destruct H as [H|([a|e] & s1 & Hr & H)]; [left; exact H|right; exists a, s1; auto|].
  left. apply moment_ret in H. subst s'. pose proof (moment_end _ x s) as M. rewrite Hr in M. exact M.
Qed.
Lemma steps_moment : forall A k (x : FT A) s, moment x s (snd (steps_f web k x s)).
Proof.
  intros A k. induction k as [|k IH]; intros x s; [apply moment_here|]. cbn [steps_f].
  destruct x as [r|m q c|m q p c|u c]; cbn [step_f].
  - pose proof (IH (FDone r) s) as H. exact H.
  - right. apply IH.
  - right. apply IH.
  - right. apply IH.
Qed.
(** Steps made do not change how the program ends. *)
Lemma steps_end : forall A k (x : FT A) s,
  run_alone_f web x s = let (x', s') := steps_f web k x s in run_alone_f web x' s'.
Proof.
  intros A k. induction k as [|k IH]; intros x s; [reflexivity|]. cbn [steps_f].
  destruct x as [r|m q c|m q p c|u c]; cbn [step_f run_alone_f]; rewrite <- IH; reflexivity.
Qed.
Lemma steps_done : forall A k (r : res A) s, steps_f web k (FDone r) s = (FDone r, s).
Proof. intros A k. induction k as [|k IH]; intros r s; [reflexivity|]. cbn [steps_f step_f]. apply IH. Qed.
Lemma steps_enough : forall A (x : FT A) s, exists k0, forall k, k0 <= k ->
  steps_f web k x s = (FDone (fst (run_alone_f web x s)), snd (run_alone_f web x s)).
Proof.
  intros A x. induction x as [r|m q c IH|m q p c IH|u c IH]; intros s.
  - exists 0. intros k _. apply steps_done.
  - destruct (IH (key_get q (map_at m (fs_reg s))) s) as [k0 H]. exists (S k0). intros [|k] Hk; [lia|]. cbn [steps_f step_f run_alone_f].
    apply H. lia.
  - destruct (IH (mkFstate (put_at m q p (fs_reg s)) (fs_fetched s))) as [k0 H]. exists (S k0). intros [|k] Hk; [lia|].
    cbn [steps_f step_f run_alone_f]. apply H. lia.
  - destruct (IH (web (fs_fetched s) u) (mkFstate (fs_reg s) (fs_fetched s ++ [u]))) as [k0 H]. exists (S k0). intros [|k] Hk; [lia|].
    cbn [steps_f step_f run_alone_f]. apply H. lia.
Qed.
End Moment.

Section Reading.
Variable E : renv.
Hypothesis HE : default_readers E.
Variable fetch : string -> res node.
Variable fd : finder.
Notation web := (fun _ : list string => fetch).
Notation reads := (reads E fetch fd).
Notation reads_members := (reads_members E fetch fd).
Notation reads_member := (reads_member E fetch fd).
Notation gets_to := (gets_to E fetch fd).
Notation member_gets_to := (member_gets_to E fetch fd).
Notation at_ K F := (mkFstate (holding K) F).

Lemma agree_inv : forall A (m : SM A) r st a st', agree m r -> m st = (Ok a, st') -> r st = Ok (a, st').
Proof.
  intros A m r st a st' H Hm. specialize (H st). destruct (r st) as [[b s1]|e]; rewrite Hm in H; cbn in H; congruence.
Qed.

(** Registering. *)
Lemma put_policy : forall K F m t a rs, let p := PPolicy m t a rs in
  key_get (pm_id m) (rg_policies (holding K)) = None ->
  mkFstate (put_at InPolicies (pm_id m) p (holding K)) F = at_ (K ++ [p]) F /\ ~ In (name_of p) (map name_of K).
Proof.
  intros K F m t a rs p H. split.
  - rewrite holding_app. cbn [put_at]. rewrite key_put_absent by exact H. reflexivity.
  - apply lookup_none. exact H.
Qed.
Lemma put_set : forall K F m t a ps, let p := PPolicySet m t a ps in
  key_get (pm_id m) (rg_sets (holding K)) = None ->
  mkFstate (put_at InSets (pm_id m) p (holding K)) F = at_ (K ++ [p]) F /\ ~ In (name_of p) (map name_of K).
Proof.
  intros K F m t a ps p H. split.
  - rewrite holding_app. cbn [put_at]. rewrite key_put_absent by exact H. reflexivity.
  - apply lookup_none. exact H.
Qed.

Lemma policy_moment : forall n K F s', moment web (read_policy_t E n) (at_ K F) s' ->
  exists K1 F1, s' = at_ K1 F1 /\ gets_to n K K1.
Proof.
  intros n K F s' H. unfold read_policy_t in H.
  destruct (read_policy E n) as [p|e] eqn:Ep.
  2:{ apply moment_ret in H. exists K, F. split; [exact H|constructor]. }
  pose proof (read_policy_is E n p Ep) as Hp. destruct p as [m t a rs|m t a ps]; [|destruct Hp].
  cbn [bind_f then_f add_policy_t moment] in H. cbn [fs_reg fs_fetched map_at] in H.
  destruct H as [->|H]; [exists K, F; split; [reflexivity|constructor]|].
  destruct (key_get (pm_id m) (rg_policies (holding K))) as [q|] eqn:Eq.
  - cbn [then_f moment] in H. destruct H as [->|[]]. exists K, F. split; [reflexivity|constructor].
  - cbn [then_f moment fs_reg fs_fetched] in H. destruct H as [->|[->|[]]]; [exists K, F; split; [reflexivity|constructor]|].
    destruct (put_policy K F m t a rs Eq) as [-> Hf]. eexists _, F. split; [reflexivity|].
    eapply gets_done, reads_policy; [|exact Hf]. apply read_policy_iff; assumption.
Qed.

Lemma register_moment : forall m t a ps K F s', let p := PPolicySet m t a ps in
  moment web (add_policy_set_t p) (at_ K F) s' ->
  s' = at_ K F \/ (s' = at_ (K ++ [p]) F /\ run_alone_f web (add_policy_set_t p) (at_ K F) = (Ok tt, s')).
Proof.
  intros m t a ps K F s' p H. unfold p, add_policy_set_t in H. cbn [moment fs_reg map_at] in H.
  destruct H as [->|H]; [left; reflexivity|].
  unfold p, add_policy_set_t. cbn [run_alone_f fs_reg map_at].
  destruct (key_get (pm_id m) (rg_sets (holding K))) as [q|] eqn:Eq.
  - cbn [moment] in H. destruct H as [->|[]]. left. reflexivity.
  - cbn [moment fs_reg fs_fetched] in H. destruct H as [->|[->|[]]]; [left; reflexivity|].
    right. destruct (put_set K F m t a ps Eq) as [Hs _]. split; [exact Hs|reflexivity].
Qed.

(** What has been read before the current member is a moment. *)
Lemma before_moment : forall n done rest K K0 U ps, called "PolicySet" n = true -> members n = done ++ rest ->
  reads_members done K K0 U ps -> gets_to n K K0.
Proof.
  intros n done. induction done as [|k done IH] using rev_ind; intros rest K K0 U ps Hc Hm Hr.
  - inversion Hr; subst. constructor.
  - apply members_app in Hr. destruct Hr as (Ka & U1 & U2 & ps1 & ps2 & Ha & Hb & ->).
    apply members_one in Hb. destruct Hb as (Kb & V1 & V2 & q & qs & Hk & Hks & ->).
    inversion Hks; subst. rewrite <- app_assoc in Hm. cbn [app] in Hm.
    assert (Hkk : member_gets_to k Ka K0 \/ Ka = K0).
    { clear - Hk. destruct Hk as [k K K' U p Hw Hr|k K p Hw Hi|base k r url d K K' U q p Hb Hx Hw Hf Hu Hd Hr Hi].
      - left. apply gets_inline; [exact Hw|]. eapply gets_done, Hr.
      - right. reflexivity.
      - left. eapply gets_fetched; try eassumption. eapply gets_done, Hr. }
    destruct Hkk as [Hkk| ->].
    + eapply gets_member; eassumption.
    + apply (IH (k :: rest) K K0 U1 ps1 Hc Hm Ha).
Qed.

Section Level.
Variable l : nat.
Notation nested := (read_doc_t l E fd).
Hypothesis HN : forall d K F s', moment web (nested d) (at_ K F) s' -> exists K1 F1, s' = at_ K1 F1 /\ gets_to d K K1.

Lemma bind_ret : forall A B (a : A) (f : A -> FT B), bind_f (FDone (Ok a)) f = f a.
Proof. reflexivity. Qed.
Lemma find_local : forall fd0 (nest : node -> FT policybase) m ref, fd0 = LocalFinder -> find_t fd0 nest m ref =
  FLook m ref (fun o => match o with Some p => FDone (Ok p) | None => FDone (Raise EXMLParseError) end).
Proof. intros fd0 nest m ref ->. reflexivity. Qed.
Lemma find_url : forall fd0 base (nest : node -> FT policybase) m ref, fd0 = UrlFinder base -> find_t fd0 nest m ref =
  bind_f (FLook m ref (fun o => match o with
                                | Some _ => FDone (Ok tt)
                                | None => find_from_reference_t nest base ref
                                end))
    (fun _ => FLook m ref (fun o => match o with Some p => FDone (Ok p) | None => FDone (Raise EXMLParseError) end)).
Proof. intros fd0 base nest m ref ->. reflexivity. Qed.

Lemma find_moment : forall k m ref K F s', wanted k = Some (nm m ref) -> xml_text k = ref ->
  moment web (find_t fd nested m ref) (at_ K F) s' ->
  exists K1 F1, s' = at_ K1 F1 /\ (K1 = K \/ member_gets_to k K K1).
Proof.
  intros k m ref K F s' Hw Hx.
  assert (Hst : exists K1 F1, at_ K F = at_ K1 F1 /\ (K1 = K \/ member_gets_to k K K1)) by (exists K, F; auto).
  assert (fd = LocalFinder \/ exists base, fd = UrlFinder base) as [Hfd|[base Hfd]]
    by (destruct fd as [|base]; [left; reflexivity|right; exists base; reflexivity]).
  - rewrite (find_local fd nested m ref Hfd). cbn [moment]. intros [->|H]; [exact Hst|].
    destruct (key_get _ _); apply moment_ret in H; subst s'; exact Hst.
  - assert (P1 : forall s1, moment web (FLook m ref (fun o => match o with
                                      | Some _ => FDone (Ok tt)
                                      | None => find_from_reference_t nested base ref
                                      end)) (at_ K F) s1 -> exists K1 F1, s1 = at_ K1 F1 /\ (K1 = K \/ member_gets_to k K K1)).
    { intros s1 H. cbn [moment] in H. destruct H as [->|H]; [exact Hst|]. cbn [fs_reg] in H.
      destruct (key_get ref (map_at m (holding K))) as [q|] eqn:Eq; [apply moment_ret in H; subst s1; exact Hst|].
      assert (Hf : ~ In (nm m ref) (map name_of K)).
      { apply lookup_none. destruct m; exact Eq. }
      unfold find_from_reference_t in H. destruct ref as [r|]; [|apply moment_ret in H; subst s1; exact Hst].
      destruct (make_url base r) as [url|e] eqn:Eu; [|apply moment_ret in H; subst s1; exact Hst].
      cbn [bind_f then_f moment fs_reg fs_fetched] in H. destruct H as [->|H]; [exact Hst|].
      destruct (fetch url) as [d|e] eqn:Ed; [|apply moment_ret in H; subst s1; eexists _, _; split; [reflexivity|auto]].
      apply moment_then in H.
      assert (exists K1 F1, s1 = at_ K1 F1 /\ gets_to d K K1) as (K1 & F1 & -> & Hg).
      { destruct H as [H|(r' & s2 & Hr & H)].
        - apply HN in H. exact H.
        - assert (s1 = s2) as -> by (destruct r'; apply moment_ret in H; exact H).
          apply (HN d K (F ++ [url])). pose proof (moment_end web _ (nested d) (at_ K (F ++ [url]))) as M. rewrite Hr in M. exact M. }
      exists K1, F1. split; [reflexivity|]. right. eapply gets_fetched; try eassumption. }
    rewrite (find_url fd base nested m ref Hfd). intros H. apply moment_bind in H. destruct H as [H|(u & s1 & Hr & H)]; [apply P1, H|].
    assert (s' = s1) as ->.
    { cbn [moment] in H. destruct H as [H|H]; [exact H|]. destruct (key_get _ _); apply moment_ret in H; exact H. }
    apply P1. pose proof (moment_end web _ (FLook m ref (fun o => match o with
                                      | Some _ => FDone (Ok tt)
                                      | None => find_from_reference_t nested base ref
                                      end)) (at_ K F)) as M. rewrite Hr in M. exact M.
Qed.

Lemma nested_sound : sound E fetch fd (read_doc l E fetch fd).
Proof. apply doc_sound, HE. Qed.

Lemma find_reads : forall k m ref K F p s1, is_elem k -> wanted k = Some (nm m ref) -> xml_text k = ref ->
  run_alone_f web (find_t fd nested m ref) (at_ K F) = (Ok p, s1) ->
  exists K' U, reads_member k K K' U p /\ s1 = at_ K' (F ++ U).
Proof.
  intros k m ref K F p s1 He Hw Hx H.
  rewrite (acts_find fetch fd nested (read_doc_s l E fetch fd) (acts_doc E fetch fd l) m ref) in H.
  apply (member_ref_sound E fetch fd (read_doc l E fetch fd) k K F p s1 (nm m ref) nested_sound He Hw).
  rewrite wanted_ln in Hw by exact He. unfold member_step. rewrite (text_get k He), Hx.
  destruct (String.eqb_spec (ln k) "PolicyIdReference") as [Hn|Hn].
  - rewrite Hn. cbn [String.eqb Ascii.eqb Bool.eqb]. destruct m; [|discriminate Hw].
    exact (agree_inv _ _ _ _ _ _ (agree_find fetch fd _ _ (agree_doc E fetch fd l) ref) H).
  - destruct (String.eqb_spec (ln k) "PolicySetIdReference") as [Hn'|Hn']; [|discriminate Hw].
    rewrite Hn'. cbn [String.eqb Ascii.eqb Bool.eqb]. destruct m; [discriminate Hw|].
    exact (agree_inv _ _ _ _ _ _ (agree_find_set fetch fd _ _ (agree_doc E fetch fd l) ref) H).
Qed.
Lemma policy_reads : forall n K F p s1, run_alone_f web (read_policy_t E n) (at_ K F) = (Ok p, s1) ->
  exists K' U, reads n K K' U p /\ s1 = at_ K' (F ++ U).
Proof.
  intros n K F p s1 H. rewrite (acts_policy E fetch n) in H.
  apply (agree_inv _ _ _ _ _ _ (agree_policy E n)) in H. apply policy_reg_iff in H; [|exact HE].
  destruct H as (Hd & Hf & ->). exists (K ++ [p]), []. rewrite app_nil_r. split; [apply reads_policy; assumption|reflexivity].
Qed.
Lemma set_reads : forall n, is_elem n -> forall K F p s1, run_alone_f web (read_set_t E fd nested n) (at_ K F) = (Ok p, s1) ->
  exists K' U, reads n K K' U p /\ s1 = at_ K' (F ++ U).
Proof.
  intros n He K F p s1 H. rewrite (acts_set E fetch fd nested (read_doc_s l E fetch fd) (acts_doc E fetch fd l) n) in H.
  apply (agree_inv _ _ _ _ _ _ (agree_set E fetch fd _ _ (agree_doc E fetch fd l) n)) in H.
  apply (set_sound E HE fetch fd _ nested_sound n He K F p s1 H).
Qed.

Definition t_step (k : node) (a : sacc) : FT sacc :=
  let l := ln k in
  if String.eqb l "Description" then
    FDone (Ok (mkSacc (description_of k (sc_description a)) (sc_target a) (sc_policies a)))
  else if String.eqb l "PolicySetDefaults" then FDone (let* _ := read_defaults k in Raise EAttributeError)
  else if String.eqb l "Target" then
    FDone (let* t := read_target E k in Ok (mkSacc (sc_description a) (Some t) (sc_policies a)))
  else if String.eqb l "CombinerParameters" then FDone (Raise ENotImplementedError)
  else if String.eqb l "PolicyCombinerParameters" then FDone (Raise ENotImplementedError)
  else if String.eqb l "PolicySetCombinerParameters" then FDone (Raise ENotImplementedError)
  else if String.eqb l "VariableDefinition" then FDone (Raise EImportError)
  else if String.eqb l "Policy" then bind_f (read_policy_t E k) (fun p => FDone (Ok (sacc_add a p)))
  else if String.eqb l "PolicyIdReference" then
    bind_f (find_t fd nested InPolicies (el_text k)) (fun p => FDone (Ok (sacc_add a p)))
  else if String.eqb l "PolicySet" then bind_f (read_set_t E fd nested k) (fun p => FDone (Ok (sacc_add a p)))
  else if String.eqb l "PolicySetIdReference" then
    bind_f (find_t fd nested InSets (el_text k)) (fun p => FDone (Ok (sacc_add a p)))
  else if String.eqb l "Obligations" then FDone (Raise ENotImplementedError)
  else FDone (Raise EXMLParseError).

Lemma set_moment : forall n, is_elem n -> forall K F s', moment web (read_set_t E fd nested n) (at_ K F) s' ->
  exists K1 F1, s' = at_ K1 F1 /\ gets_to n K K1.
Proof.
  induction n as [t|tag attrs text kids IH] using node_ind'; intros He K F s'; [destruct He|].
  pose proof (set_reads (Elem tag attrs text kids) He K F) as Hsound. revert Hsound.
  cbn [read_set_t]. set (n := Elem tag attrs text kids) in *.
  assert (Hst : exists K1 F1, at_ K F = at_ K1 F1 /\ gets_to n K K1) by (exists K, F; split; [reflexivity|constructor]).
  destruct (String.eqb (get_local_part tag) "PolicySet") eqn:Etag; cbn [negb].
  2:{ intros _ H. apply moment_ret in H. subst s'. exact Hst. }
  assert (Hc : called "PolicySet" n = true) by (rewrite called_ln by (reflexivity || exact I); exact Etag).
  destruct (required n "PolicySetId") as [id|e]; [|intros _ H; apply moment_ret in H; subst s'; exact Hst].
  rewrite bind_ret.
  destruct (required n "PolicyCombiningAlgId") as [ai|e]; [|intros _ H; apply moment_ret in H; subst s'; exact Hst].
  rewrite bind_ret.
  destruct (policy_alg_of ai) as [alg|e]; [|intros _ H; apply moment_ret in H; subst s'; exact Hst].
  rewrite bind_ret.
  match goal with |- context [bind_f (?go kids _) _] => set (g := go) end.
  intros Hsound H.
  assert (G : forall ks done a K0 F0 U ps, (forall k, In k ks -> In k kids) ->
    members n = done ++ filter is_member (elements ks) -> reads_members done K K0 U ps ->
    (forall s', moment web (g ks a) (at_ K0 F0) s' -> exists K1 F1, s' = at_ K1 F1 /\ gets_to n K K1) /\
    (forall a' s1, run_alone_f web (g ks a) (at_ K0 F0) = (Ok a', s1) ->
       exists K1 F1 U1 ps1, s1 = at_ K1 F1 /\ reads_members (members n) K K1 U1 ps1)).
  { clear Hsound H. induction ks as [|k ks IHk]; intros done a K0 F0 U ps Hks Hm Hr.
    - change (g [] a) with (FDone (Ok a)). cbn [elements filter] in Hm. split.
      + intros s1 H1. apply moment_ret in H1. subst s1. exists K0, F0. split; [reflexivity|].
        apply (before_moment n done [] K K0 U ps Hc Hm Hr).
      + intros a' s1 H1. cbn in H1. injection H1 as _ <-. exists K0, F0, U, ps. split; [reflexivity|].
        rewrite Hm, app_nil_r. exact Hr.
    - assert (Hks' : forall k', In k' ks -> In k' kids) by (intros k' Hk'; apply Hks; right; exact Hk').
      destruct k as [t at' x sub|t].
      2:{ exact (IHk done a K0 F0 U ps Hks' Hm Hr). }
      assert (Hke : is_elem (Elem t at' x sub)) by exact I.
      assert (Hkin : In (Elem t at' x sub) kids) by (apply Hks; left; reflexivity).
      assert (HIH := proj1 (Forall_forall _ _) IH _ Hkin Hke).
      assert (Hln : get_local_part t = ln (Elem t at' x sub)) by reflexivity.
      cbn [elements filter] in Hm. fold (elements ks) in Hm. cbn [filter] in Hm.
      remember (Elem t at' x sub) as k eqn:Ek.
      (* nothing of the finder is touched *)
      assert (NM : forall r : res sacc, (forall a', r = Ok a' -> is_member k = false) ->
        (forall s1, moment web (bind_f (FDone r) (fun a' => g ks a')) (at_ K0 F0) s1 ->
           exists K1 F1, s1 = at_ K1 F1 /\ gets_to n K K1) /\
        (forall a' s1, run_alone_f web (bind_f (FDone r) (fun a' => g ks a')) (at_ K0 F0) = (Ok a', s1) ->
           exists K1 F1 U1 ps1, s1 = at_ K1 F1 /\ reads_members (members n) K K1 U1 ps1)).
      { intros [a1|e] Hnm.
        - rewrite (Hnm a1 eq_refl) in Hm. rewrite bind_ret. exact (IHk done a1 K0 F0 U ps Hks' Hm Hr).
        - split; [|intros ? ? H1; discriminate H1]. intros s1 H1. apply moment_ret in H1. subst s1.
          exists K0, F0. split; [reflexivity|]. eapply (before_moment n done); eassumption. }
      (* a member *)
      assert (MB : forall prog : FT policybase, is_member k = true ->
        (forall s1, moment web prog (at_ K0 F0) s1 -> exists K1 F1, s1 = at_ K1 F1 /\ (K1 = K0 \/ member_gets_to k K0 K1)) ->
        (forall p s1, run_alone_f web prog (at_ K0 F0) = (Ok p, s1) -> exists K' V, reads_member k K0 K' V p /\ s1 = at_ K' (F0 ++ V)) ->
        (forall s1, moment web (bind_f (bind_f prog (fun p => FDone (Ok (sacc_add a p)))) (fun a' => g ks a')) (at_ K0 F0) s1 ->
           exists K1 F1, s1 = at_ K1 F1 /\ gets_to n K K1) /\
        (forall a' s1, run_alone_f web (bind_f (bind_f prog (fun p => FDone (Ok (sacc_add a p)))) (fun a' => g ks a')) (at_ K0 F0) = (Ok a', s1) ->
           exists K1 F1 U1 ps1, s1 = at_ K1 F1 /\ reads_members (members n) K K1 U1 ps1)).
      { intros prog Hmem PM PR. rewrite Hmem in Hm.
        assert (HP : forall s1, moment web prog (at_ K0 F0) s1 -> exists K1 F1, s1 = at_ K1 F1 /\ gets_to n K K1).
        { intros s1 H1. destruct (PM s1 H1) as (K1 & F1 & -> & [->|Hg]); exists K1, F1 || exists K0, F1; (split; [reflexivity|]).
          - eapply (before_moment n done); eassumption.
          - eapply gets_member; eassumption. }
        assert (HR : forall p s1, run_alone_f web prog (at_ K0 F0) = (Ok p, s1) -> exists K1 V, s1 = at_ K1 (F0 ++ V) /\
          exists U1 ps1, reads_members (done ++ [k]) K K1 U1 ps1).
        { intros p s1 H1. destruct (PR p s1 H1) as (K1 & V & Hk1 & ->). exists K1, V. split; [reflexivity|].
          clear - Hr Hk1. revert K U ps Hr. induction done as [|b done IHd]; intros K U ps Hr.
          - inversion Hr; subst. eexists _, _. cbn [app]. eapply reads_more; [exact Hk1|constructor].
          - apply members_one in Hr. destruct Hr as (M & A1 & A2 & b1 & bs & Hb1 & Hbs & ->).
            destruct (IHd M A2 bs Hbs) as (U1 & ps1 & H1). eexists _, _. cbn [app]. eapply reads_more; eassumption. }
        assert (Hm' : members n = (done ++ [k]) ++ filter is_member (elements ks)) by (rewrite <- app_assoc; exact Hm).
        split.
        - intros s1 H1. apply moment_bind in H1. destruct H1 as [H1|(a1 & s2 & Hr1 & H1)].
          + apply moment_bind in H1. destruct H1 as [H1|(p & s2 & Hr1 & H1)]; [apply HP, H1|].
            apply moment_ret in H1. subst s2. apply HP.
            pose proof (moment_end web _ prog (at_ K0 F0)) as M. rewrite Hr1 in M. exact M.
          + rewrite alone_bind in Hr1. destruct (run_alone_f web prog (at_ K0 F0)) as [[p|e] s3] eqn:Ep; [|discriminate Hr1].
            cbn [run_alone_f] in Hr1. injection Hr1 as <- <-.
            destruct (HR p s3 eq_refl) as (K1 & V & -> & U1 & ps1 & Hr1).
            exact (proj1 (IHk (done ++ [k]) (sacc_add a p) K1 (F0 ++ V) U1 ps1 Hks' Hm' Hr1) s1 H1).
        - intros a' s1 H1. rewrite alone_bind, alone_bind in H1.
          destruct (run_alone_f web prog (at_ K0 F0)) as [[p|e] s3] eqn:Ep; [|discriminate H1].
          cbn [run_alone_f] in H1.
          destruct (HR p s3 eq_refl) as (K1 & V & -> & U1 & ps1 & Hr1).
          exact (proj2 (IHk (done ++ [k]) (sacc_add a p) K1 (F0 ++ V) U1 ps1 Hks' Hm' Hr1) a' s1 H1). }
      assert (Hmem := member_at k Hke). assert (Hnw := wanted_ln k Hke). assert (Htx := text_get k Hke).
      assert (Hstep : g (k :: ks) a = bind_f (t_step k a) (fun a' => g ks a')) by (subst k; reflexivity).
      rewrite Hstep. unfold t_step. clear Hstep IH Hln Ek.
      Ltac case_tag k s Hn := destruct (String.eqb_spec (ln k) s) as [Hn|Hn].
      case_tag k "Description" N1; [apply NM; intros; rewrite Hmem; try rewrite N1; reflexivity|].
      case_tag k "PolicySetDefaults" N2; [apply NM; intros ? Hx; destruct (read_defaults k); discriminate Hx|].
      case_tag k "Target" N3; [apply NM; intros; rewrite Hmem; try rewrite N3; reflexivity|].
      case_tag k "CombinerParameters" N4; [apply NM; discriminate|].
      case_tag k "PolicyCombinerParameters" N5; [apply NM; discriminate|].
      case_tag k "PolicySetCombinerParameters" N6; [apply NM; discriminate|].
      case_tag k "VariableDefinition" N7; [apply NM; discriminate|].
      case_tag k "Policy" N8.
      { try rewrite N8 in Hmem. try rewrite N8 in Hnw. apply MB; [exact Hmem| |].
        - intros s1 H1. apply policy_moment in H1. destruct H1 as (K1 & F1 & -> & Hg). exists K1, F1.
          split; [reflexivity|]. right. apply gets_inline; [exact Hnw|exact Hg].
        - intros p s1 H1. apply policy_reads in H1. destruct H1 as (K' & V & Hg & ->). exists K', V.
          split; [|reflexivity]. apply reads_inline; [exact Hnw|exact Hg]. }
      case_tag k "PolicyIdReference" N9.
      { try rewrite N9 in Hmem. try rewrite N9 in Hnw. apply MB; [exact Hmem| |].
        - intros s1 H1. eapply (find_moment k InPolicies (el_text k)); [rewrite Hnw, Htx; reflexivity|symmetry; exact Htx|exact H1].
        - intros p s1 H1. eapply (find_reads k InPolicies (el_text k)); [exact Hke|rewrite Hnw, Htx; reflexivity|symmetry; exact Htx|exact H1]. }
      case_tag k "PolicySet" N10.
      { try rewrite N10 in Hmem. try rewrite N10 in Hnw. apply MB; [exact Hmem| |].
        - intros s1 H1. apply HIH in H1. destruct H1 as (K1 & F1 & -> & Hg). exists K1, F1.
          split; [reflexivity|]. right. apply gets_inline; [exact Hnw|exact Hg].
        - intros p s1 H1. apply set_reads in H1; [|exact Hke]. destruct H1 as (K' & V & Hg & ->). exists K', V.
          split; [|reflexivity]. apply reads_inline; [exact Hnw|exact Hg]. }
      case_tag k "PolicySetIdReference" N11.
      { try rewrite N11 in Hmem. try rewrite N11 in Hnw. apply MB; [exact Hmem| |].
        - intros s1 H1. eapply (find_moment k InSets (el_text k)); [rewrite Hnw, Htx; reflexivity|symmetry; exact Htx|exact H1].
        - intros p s1 H1. eapply (find_reads k InSets (el_text k)); [exact Hke|rewrite Hnw, Htx; reflexivity|symmetry; exact Htx|exact H1]. }
      case_tag k "Obligations" N12; apply NM; discriminate. }
  destruct (G kids [] (mkSacc None None []) K F [] [] (fun k Hk => Hk) eq_refl (reads_none E fetch fd K)) as [G1 G2].
  apply moment_bind in H. destruct H as [H|(a & s1 & Hr & H)]; [apply G1, H|].
  destruct (G2 a s1 Hr) as (K0 & F0 & U & ps & -> & Hm).
  apply moment_bind in H. destruct H as [H|(u & s2 & Hr2 & H)].
  - apply register_moment in H. destruct H as [->|[Hs Hr2]].
    + exists K0, F0. split; [reflexivity|]. apply (before_moment n (members n) [] K K0 U ps Hc); [rewrite app_nil_r; reflexivity|exact Hm].
    + edestruct Hsound as (K' & U' & Hreads & Hs').
      { rewrite alone_bind, Hr, alone_bind, Hr2. reflexivity. }
      exists K', (F ++ U'). split; [exact Hs'|]. eapply gets_done, Hreads.
  - apply moment_ret in H. subst s2.
    edestruct Hsound as (K' & U' & Hreads & Hs').
    { rewrite alone_bind, Hr, alone_bind, Hr2. reflexivity. }
    exists K', (F ++ U'). split; [exact Hs'|]. eapply gets_done, Hreads.
Qed.
End Level.

Lemma doc_moment : forall l d K F s', moment web (read_doc_t l E fd d) (at_ K F) s' ->
  exists K1 F1, s' = at_ K1 F1 /\ gets_to d K K1.
Proof.
  induction l as [|l IH]; intros d K F s' H; cbn [read_doc_t] in H.
  { apply moment_ret in H. exists K, F. split; [exact H|constructor]. }
  destruct d as [tag a t kids|t].
  2:{ apply moment_ret in H. exists K, F. split; [exact H|constructor]. }
  cbn [local_name] in H. rewrite bind_ret in H.
  destruct (String.eqb (get_local_part tag) "Policy"); [apply policy_moment in H; exact H|].
  destruct (String.eqb (get_local_part tag) "PolicySet").
  - apply (set_moment l IH (Elem tag a t kids) I K F s' H).
  - apply moment_ret in H. exists K, F. split; [exact H|constructor].
Qed.

Lemma stopped_gets : forall limit k e n K F,
  exists K1 F1, snd (stopped_load limit E fetch fd k e n (at_ K F)) = at_ K1 F1 /\ gets_to n K K1.
Proof.
  intros limit k e n K F. pose proof (steps_moment web _ k (read_doc_t limit E fd n) (at_ K F)) as M.
  apply doc_moment in M. destruct M as (K1 & F1 & Hs & Hg). exists K1, F1. split; [|exact Hg].
  unfold stopped_load. destruct (steps_f web k (read_doc_t limit E fd n) (at_ K F)) as [x s1]. cbn [snd] in Hs.
  destruct x; exact Hs.
Qed.
Lemma stopped_ok : forall limit k e n s p s', stopped_load limit E fetch fd k e n s = (Ok p, s') ->
  read_doc_s limit E fetch fd n s = (Ok p, s').
Proof.
  intros limit k e n s p s' H. rewrite <- (acts_doc E fetch fd limit n s), (steps_end web _ k). unfold stopped_load in H.
  destruct (steps_f web k (read_doc_t limit E fd n) s) as [x s1]. destruct x; try discriminate H. cbn [run_alone_f]. exact H.
Qed.
Lemma stopped_enough : forall limit e n s, exists k0, forall k, k0 <= k ->
  stopped_load limit E fetch fd k e n s = read_doc_s limit E fetch fd n s.
Proof.
  intros limit e n s. destruct (steps_enough web _ (read_doc_t limit E fd n) s) as [k0 H]. exists k0. intros k Hk.
  unfold stopped_load. rewrite (H k Hk). rewrite (acts_doc E fetch fd limit n s).
  destruct (read_doc_s limit E fetch fd n s); reflexivity.
Qed.

End Reading.
