(** C93: how much larger than its documents a policy can be. *)
From Coq Require Import Lia.
From Verif Require Import Readers EvalState SpecEval SpecState SpecAmplify Sample.
From Verif Require Import ReadFacts3 ReadFacts4 QueryFacts AmplifyFacts AmplifyFacts2.

(** A document without references: the policy has at most as many policies, policy sets
    and subject designators as the document has elements. *)
Theorem C93_plain : forall E fetch fd limit K F d p st, default_readers E ->
  read_doc limit E fetch fd d (mkFstate (holding K) F) = Ok (p, st) ->
  without_references d ->
  occurrences p + subject_designators p <= size_of d.
Proof.
  intros E fetch fd limit K F d p st HE H W.
  destruct (doc_sound E HE fetch fd limit d K F p st H) as (K' & U & Hr & _).
  exact (proj1 (plain_mut E fetch fd) _ _ _ _ _ Hr W).
Qed.

(** With references it is less than two to the number of elements of the document and of the
    documents fetched, times the largest policy that the finder knows before. *)
Theorem C93_bound : forall E fetch fd limit K F d p st M, default_readers E ->
  read_doc limit E fetch fd d (mkFstate (holding K) F) = Ok (p, st) ->
  1 <= M -> (forall q, In q K -> occurrences q + subject_designators q <= M) ->
  exists urls, fs_fetched st = F ++ urls /\
    occurrences p + subject_designators p < M * 2 ^ (size_of d + size_at fetch urls).
Proof.
  intros E fetch fd limit K F d p st M HE H HM HK.
  destruct (doc_sound E HE fetch fd limit d K F p st H) as (K' & U & Hr & ->).
  exists U. split; [reflexivity|]. exact (proj1 (proj1 (bound_mut E fetch fd) _ _ _ _ _ Hr M HM HK)).
Qed.

(** So one evaluation of a policy read by a new finder asks the attribute source less than
    that often for each subject of the request; without references at most once for each
    element. *)
Theorem C93_questions : forall E fetch fd limit d p st S c w, default_readers E ->
  read_doc limit E fetch fd d (mkFstate (holding []) []) = Ok (p, st) ->
  length (w_log (snd (policy_eval_s S c p w))) <=
    length (w_log w) + 2 ^ (size_of d + size_at fetch (fs_fetched st)) * subjects_of c /\
  (without_references d ->
   length (w_log (snd (policy_eval_s S c p w))) <= length (w_log w) + size_of d * subjects_of c).
Proof.
  intros E fetch fd limit d p st S c w HE H. pose proof (costs_policy S c p w) as C. split.
  - destruct (C93_bound E fetch fd limit [] [] d p st 1 HE H (le_n 1)) as (urls & -> & B); [intros q []|].
    cbn [app]. nia.
  - intros W. pose proof (C93_plain E fetch fd limit [] [] d p st HE H W) as B. nia.
Qed.

(** No polynomial bounds it: for every [n] there is a document with 7 + 2n elements that a
    new finder accepts without fetching anything; the policy has 2^(n+1) - 1 policies and
    policy sets, and one evaluation asks the attribute source 2^n times for each subject of
    a request. *)
Theorem C93_exponential : forall fetch n, exists d limit p st,
  size_of d = 7 + 2 * n /\
  read_doc limit std_renv fetch LocalFinder d (mkFstate (holding []) []) = Ok (p, st) /\
  fs_fetched st = [] /\
  occurrences p = 2 ^ (n + 1) - 1 /\ subject_designators p = 2 ^ n /\
  forall m, exists S c, subjects_of c = m /\
    forall w, fst (policy_eval_s S c p w) = Ok NotApplicable /\
      length (w_log (snd (policy_eval_s S c p w))) = length (w_log w) + 2 ^ n * m.
Proof.
  intros fetch n.
  destruct (proj1 (complete_mut std_renv std_readers fetch LocalFinder) _ _ _ _ _ (tower_reads fetch LocalFinder n) (NoDup_nil _)) as (_ & L & HL).
  exists (tower_doc n), L, (tower n), (mkFstate (holding (floors n)) ([] ++ [])).
  split; [apply tower_size|]. split; [apply HL; constructor|]. split; [reflexivity|].
  split; [rewrite Nat.add_1_r; apply tower_occurrences|]. split; [apply tower_designators|].
  intros m. exists quiet, (CtxRequest (m_request m)). split; [apply (n_policy_size 0 m)|].
  intros w. destruct (tower_asks n m w) as (w' & H1 & H2). rewrite H1. split; [reflexivity|exact H2].
Qed.

(** Three levels, 13 elements: 15 policies and policy sets.  And a document without
    references. *)
Example C93_case : exists limit p st,
  read_doc limit std_renv (fun _ => Raise EKeyError) LocalFinder (tower_doc 3) (mkFstate (holding []) []) = Ok (p, st) /\
  size_of (tower_doc 3) = 13 /\ occurrences p = 15 /\ subject_designators p = 8 /\
  ~ without_references (tower_doc 3).
Proof.
  exists 5. eexists _, _. split; [vm_compute; reflexivity|]. split; [reflexivity|]. split; [vm_compute; reflexivity|].
  split; [vm_compute; reflexivity|]. intros W.
  assert (inside (ref_to 2) (tower_doc 3)) as I by (apply inside_kid with (ref_to 2); [right; left; reflexivity|apply inside_self]).
  discriminate (W _ I).
Qed.
Example C93_plain_case : exists p st,
  read_doc 3 std_renv (fun _ => Raise EKeyError) LocalFinder (tower_doc 0) (mkFstate (holding []) []) = Ok (p, st) /\
  occurrences p + subject_designators p = 2 /\ size_of (tower_doc 0) = 7 /\ without_references (tower_doc 0).
Proof.
  eexists _, _. split; [vm_compute; reflexivity|]. split; [vm_compute; reflexivity|]. split; [reflexivity|].
  assert (Q : forall m n, inside m n ->
    (fix chk (n : node) : bool := match wanted n with None => match n with Elem _ _ _ ks => forallb chk ks | Comment _ => true end | Some _ => false end) n = true ->
    wanted m = None).
  { intros m n H. induction H as [|n k Hk _ IH]; intros C.
    - destruct m as [tag a t ks|t]; [|reflexivity]. cbn -[wanted] in C. destruct (wanted (Elem tag a t ks)); [discriminate C|reflexivity].
    - apply IH. destruct n as [tag a t ks|t]; [|destruct Hk]. cbn in Hk. apply filter_In in Hk.
      cbn -[wanted] in C. destruct (wanted (Elem tag a t ks)); [discriminate C|]. rewrite forallb_forall in C. apply C, Hk. }
  intros m Hm. apply (Q m _ Hm). reflexivity.
Qed.

Print Assumptions C93_plain.
Print Assumptions C93_bound.
Print Assumptions C93_questions.
Print Assumptions C93_exponential.
