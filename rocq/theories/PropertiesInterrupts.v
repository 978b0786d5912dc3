(** C98: loads that are stopped by an exception from outside, and loading again. *)
From Verif Require Import Interrupts SpecText SpecRead SpecSources SpecFinderThreads SpecInterrupts Sample.
From Verif Require Import ReadFacts3 SourcesFacts SourcesFacts2 InterruptsFacts InterruptsFacts2 InterruptsFacts3.
From Verif Require Import PropertiesRead PropertiesSources PropertiesFinderThreads.
Open Scope string_scope.

(** ** What a stopped load leaves *)

(** The finder then holds what it held at some moment of the reading. *)
Theorem C98_held : forall limit RE xs k e i o w s n fd K, default_readers RE ->
  loads_with i o w s -> parse_source w s = Ok n ->
  finder_holds (run_i limit RE xs program0) i fd K ->
  exists K1, finder_holds (snd (step_stopped limit RE k e o (run_i limit RE xs program0))) i fd K1 /\
    gets_to RE (w_fetch w) fd n K K1.
Proof.
  intros limit RE xs k e i o w s n fd K HE Hl Hp Hf. exact (stopped_step_gets limit RE HE k e i o w s n _ fd K Hl Hp Hf).
Qed.
(** That is what it held before and the first of those that the complete load adds. *)
Theorem C98_moment : forall RE fetch fd n K K1, default_readers RE -> NoDup (map name_of K) ->
  gets_to RE fetch fd n K K1 ->
  NoDup (map name_of K1) /\ (exists new, K1 = K ++ new)%list /\
  forall K' urls p, reads RE fetch fd n K K' urls p -> exists rest, K' = (K1 ++ rest)%list.
Proof.
  intros RE fetch fd n K K1 HE Hn H. split; [exact (proj1 (gets_distinct RE fetch fd) _ _ _ H Hn)|].
  split; [exact (proj1 (gets_appends RE fetch fd) _ _ _ H)|].
  intros K' urls p Hr. exact (proj1 (moments_before RE HE fetch fd) _ _ _ H Hn _ _ _ Hr).
Qed.
(** There is a moment for each number of them. *)
Theorem C98_every_moment : forall RE fetch fd n K K' urls p, default_readers RE -> NoDup (map name_of K) ->
  reads RE fetch fd n K K' urls p ->
  exists L, forall limit, L <= limit -> forall e F K1 new rest, K1 = (K ++ new)%list -> K' = (K1 ++ rest)%list ->
    exists k F1, snd (stopped_load limit RE fetch fd k e n (mkFstate (holding K) F)) = mkFstate (holding K1) F1.
Proof. exact every_moment. Qed.

(** The operation raises the exception, or it does what it does undisturbed. *)
Theorem C98_outcome : forall limit RE k e o st,
  step_stopped limit RE k e o st = step limit RE o st \/ fst (step_stopped limit RE k e o st) = Raise e.
Proof. exact stopped_step_either. Qed.
(** The latter, if the exception would come late enough. *)
Theorem C98_late : forall limit RE e o st, exists k0, forall k, k0 <= k ->
  step_stopped limit RE k e o st = step limit RE o st.
Proof. exact stopped_step_enough. Qed.

(** ** Histories with stopped loads *)

(** No PDP gets another policy from an operation that raises, stopped or not. *)
Theorem C98_failed : forall limit RE x st e st',
  step_i limit RE x st = (Raise e, st') -> ap_pdps st' = ap_pdps st.
Proof. exact step_i_failed. Qed.
(** Finders hold policies, no two with one name, and lose none. *)
Theorem C98_finders : forall limit RE xs i fd fs, default_readers RE ->
  nth_error (ap_finders (run_i limit RE xs program0)) i = Some (fd, fs) ->
  exists K, finder_holds (run_i limit RE xs program0) i fd K /\
    forall ys, exists new, finder_holds (run_i limit RE (xs ++ ys) program0) i fd (K ++ new).
Proof.
  intros limit RE xs i fd fs HE H. destruct (run_i_held limit RE HE xs program0 held0) as [Hh _].
  destruct (held_nth _ i fd fs Hh H) as (K & F & -> & Hn).
  assert (finder_holds (run_i limit RE xs program0) i fd K) as Hf by (split; [exact Hn|exists F; exact H]).
  exists K. split; [exact Hf|]. intros ys. rewrite run_i_app.
  exact (proj2 (run_i_held limit RE HE ys _ Hh) i fd K Hf).
Qed.
(** What is in force in a PDP was given by the last operation about it that succeeded;
    it is what that operation gives undisturbed. *)
Theorem C98_in_force : forall limit RE xs j v, default_readers RE ->
  nth_error (ap_pdps (run_i limit RE xs program0)) j = Some v ->
  exists xs1 x xs2, xs = (xs1 ++ x :: xs2)%list /\
    fst (step_i limit RE x (run_i limit RE xs1 program0)) = Ok tt /\
    about (op_of x) (run_i limit RE xs1 program0) j /\
    gives RE (run_i limit RE xs1 program0) (op_of x) v /\
    (forall ys y zs, xs2 = (ys ++ y :: zs)%list -> about (op_of y) (run_i limit RE (xs1 ++ x :: ys) program0) j ->
       exists e, fst (step_i limit RE y (run_i limit RE (xs1 ++ x :: ys) program0)) = Raise e).
Proof. intros limit RE xs j v HE. exact (in_force_i limit RE HE xs j v). Qed.

(** ** Loading again with the same finder *)

(** If a name is held that is written in the document itself, it cannot be loaded. *)
Theorem C98_refused : forall limit RE fetch fd n K F m x, default_readers RE ->
  written_in m n -> declared m x -> In x (map name_of K) ->
  exists e, fst (read_doc_s limit RE fetch fd n (mkFstate (holding K) F)) = Raise e.
Proof. exact held_refused. Qed.
(** So a document without references of which a stopped load has added anything cannot
    be loaded with that finder any more. *)
Theorem C98_stuck : forall RE fetch fd n K K1, default_readers RE -> NoDup (map name_of K) ->
  (forall m, inside m n -> wanted m = None) -> gets_to RE fetch fd n K K1 -> K1 <> K ->
  forall more limit fetch' F, exists e,
    fst (read_doc_s limit RE fetch' fd n (mkFstate (holding (K1 ++ more)) F)) = Raise e.
Proof.
  intros RE fetch fd n K K1 HE Hn Hp Hg HK more limit fetch' F.
  destruct (proj1 (gets_appends RE fetch fd) _ _ _ Hg) as [new ->]. destruct new as [|q new]; [rewrite app_nil_r in HK; contradiction|].
  assert (In q (K ++ q :: new)%list) as Hq by (apply in_or_app; right; left; reflexivity).
  destruct (proj1 (gets_added RE fetch fd) _ _ _ Hg Hp q Hq) as [Hin|(m & Hm & Hd)].
  - exfalso. apply (proj1 (gets_distinct RE fetch fd) _ _ _ Hg) in Hn. rewrite map_app in Hn. cbn [map] in Hn.
    apply NoDup_remove_2 in Hn. apply Hn, in_or_app. left. apply in_map, Hin.
  - apply (held_refused limit RE fetch' fd n _ F m (name_of q) HE Hm Hd). apply in_map, in_or_app. left. exact Hq.
Qed.
(** A policy set stopped between two members, all before being references, can be loaded
    again, with the result of the complete load. *)
Theorem C98_again : forall RE fetch fd n K K' urls p before after K0 us ps, default_readers RE ->
  NoDup (map name_of K) -> reads RE fetch fd n K K' urls p ->
  called "PolicySet" n = true -> members n = (before ++ after)%list ->
  (forall k, In k before -> wanted k <> None) -> reads_members RE fetch fd before K K0 us ps ->
  exists L, forall limit, L <= limit -> forall F, exists F',
    read_doc_s limit RE fetch fd n (mkFstate (holding K0) F) = (Ok p, mkFstate (holding K') F').
Proof.
  intros RE fetch fd n K K' urls p before after K0 us ps HE Hn Hr Hc Hm Hw Hb.
  destruct (go_on RE fetch fd n K K' urls p before after K0 us ps HE Hn Hr Hc Hm Hw Hb) as [W H].
  assert (NoDup (map name_of K0)) as Hn0 by (exact (proj1 (proj2 (ReadFacts4.distinct_mut RE fetch fd)) _ _ _ _ _ Hb Hn)).
  destruct (loads_ok RE (mkWorld (fun _ => true) (fun _ => Raise EXMLParseError) (fun _ => Raise EXMLParseError) fetch)
              fd n K0 K' W p HE Hn0 H) as [L HL].
  exists L. intros limit Hl F. exists (F ++ W)%list. exact (HL limit Hl F).
Qed.
(** After any number of attempts, stopped anywhere and with a web that fails at times, a
    load that succeeds gives what the first would have given if undisturbed, and the
    finder then holds the same; provided that references name what is at their URL. *)
Theorem C98_retry : forall RE fetch fd n l K K' urls p F limit fetch' q s', default_readers RE ->
  NoDup (map name_of K) -> well_placed fetch fd n -> reads RE fetch fd n K K' urls p ->
  (forall a, In a l -> at_times (at_fetch a) fetch) -> at_times fetch' fetch ->
  read_doc_s limit RE fetch' fd n (attempts RE fd n l (mkFstate (holding K) F)) = (Ok q, s') ->
  q = p /\ exists K2 F2, s' = mkFstate (holding K2) F2 /\ forall x, In x K2 <-> In x K'.
Proof.
  intros RE fetch fd n l K K' urls p F limit fetch' q s' HE Hn Hwp Hr Hl Ht Hq.
  assert (Forall (fun a => at_times (at_fetch a) fetch) l) as Ha by (apply Forall_forall; exact Hl).
  destruct (attempts_then RE HE fetch fd n Hwp l K K' urls p F Hn Hr Ha) as (K1 & F1 & L & Es & _ & _ & _ & H).
  rewrite Es in Hq.
  destruct (read_ok limit RE (mkWorld (fun _ => true) (fun _ => Raise EXMLParseError) (fun _ => Raise EXMLParseError) fetch')
              fd n K1 F1 q HE) as (K2 & us & Hr2 & Hs2); cbn [w_fetch] in *; [rewrite Hq; reflexivity|].
  rewrite Hq in Hs2. cbn [snd] in Hs2.
  destruct (H K2 us q (proj1 (reads_times RE fetch' fetch Ht fd) _ _ _ _ _ Hr2)) as [-> Hs].
  split; [reflexivity|]. exists K2, (F1 ++ us)%list. split; [exact Hs2|exact Hs].
Qed.

(** ** Where the proviso is not met *)

(** A load that fails may succeed when it is repeated, nothing having changed: the
    document at the URL is a set with the policy wanted and something wrong after it. *)
Definition d_wrong : node := d_set "http://x/q" [d_policy "http://x/p" [d_rule "a"]; xe "Nonsense" [] None []].
Definition wrong_web (url : string) : res node := if String.eqb url "http://x/p" then Ok d_wrong else Raise (EOther 7).
Definition d_top : node := d_set "top" [d_pref "http://x/p"].
Theorem C98_repeat_refuted : exists fetch n e p s,
  read_doc_s 5 std_renv fetch (UrlFinder None) n fstate0 = (Raise e, s) /\
  fst (read_doc_s 5 std_renv fetch (UrlFinder None) n s) = Ok p.
Proof.
  exists wrong_web, d_top. eexists _, _, _. split; [vm_compute; reflexivity|]. vm_compute. reflexivity.
Qed.

(** After a stopped attempt another policy may come out than without it. *)
Definition d_q1 : node := d_set "http://x/q" [d_policy "http://x/p" [d_rule "a"]].
Definition d_q2 : node := d_set "http://x/q" [].
Definition odd_web (url : string) : res node :=
  if String.eqb url "http://x/p" then Ok d_q1
  else if String.eqb url "http://x/q" then Ok d_q2 else Raise (EOther 7).
Definition d_two_refs : node := d_set "top" [d_pref "http://x/p"; d_sref "http://x/q"].
Theorem C98_misplaced_refuted : exists fetch n k p q, p <> q /\
  fst (read_doc_s 5 std_renv fetch (UrlFinder None) n fstate0) = Ok p /\
  fst (read_doc_s 5 std_renv fetch (UrlFinder None) n
         (snd (stopped_load 5 std_renv fetch (UrlFinder None) k (EOther 9) n fstate0))) = Ok q.
Proof.
  exists odd_web, d_two_refs, 4. eexists _, _. split; [|split; [vm_compute; reflexivity|vm_compute; reflexivity]].
  intros H. discriminate H.
Qed.

(** ** Cases *)
Definition d_refs : node := d_set "main" [d_pref "http://x/p"; d_sref "http://x/s"].
Definition refs (d : node) : list (name * option string) :=
  flat_map (fun m => match wanted m with Some x => [(x, xml_text m)] | None => [] end) (subs d).
Lemma refs_in : forall m d x, inside m d -> wanted m = Some x -> In (x, xml_text m) (refs d).
Proof.
  intros m d x Hi Hw. apply in_flat_map. exists m. split; [apply inside_subs, Hi|]. rewrite Hw. left. reflexivity.
Qed.
Lemma refs_placed : well_placed web (UrlFinder None) d_refs.
Proof.
  intros base d m x r url d' Hreach Hi Hw Hfd Ht Hu Hf. injection Hfd as <-.
  set (dp := d_policy "http://x/p" [d_rule "a"]). set (ds := d_set "http://x/s" [d_pref "http://x/p"]).
  assert (forall d m x, d = d_refs \/ d = dp \/ d = ds -> inside m d -> wanted m = Some x ->
            (x = PolicyName (Some "http://x/p") /\ xml_text m = Some "http://x/p") \/
            (x = SetName (Some "http://x/s") /\ xml_text m = Some "http://x/s")) as Hrefs.
  { intros d0 m0 x0 H Hi0 Hw0. pose proof (refs_in m0 d0 x0 Hi0 Hw0) as Hin.
    destruct H as [->|[->| ->]].
    - assert (refs d_refs = [(PolicyName (Some "http://x/p"), Some "http://x/p"); (SetName (Some "http://x/s"), Some "http://x/s")]) as E
        by (vm_compute; reflexivity).
      rewrite E in Hin. destruct Hin as [Hin|[Hin|[]]]; [left|right]; split; congruence.
    - assert (refs dp = []) as E by (vm_compute; reflexivity). rewrite E in Hin. destruct Hin.
    - assert (refs ds = [(PolicyName (Some "http://x/p"), Some "http://x/p")]) as E by (vm_compute; reflexivity).
      rewrite E in Hin. destruct Hin as [Hin|[]]. left. split; congruence. }
  assert (forall u y, make_url None "http://x/p" = Ok u -> web u = Ok y -> y = dp) as Hp.
  { intros u y Hu0 Hy. vm_compute in Hu0. injection Hu0 as <-. cbn [web String.eqb Ascii.eqb Bool.eqb] in Hy. injection Hy as <-. reflexivity. }
  assert (forall u y, make_url None "http://x/s" = Ok u -> web u = Ok y -> y = ds) as Hs.
  { intros u y Hu0 Hy. vm_compute in Hu0. injection Hu0 as <-. cbn [web String.eqb Ascii.eqb Bool.eqb] in Hy. injection Hy as <-. reflexivity. }
  assert (d = d_refs \/ d = dp \/ d = ds) as Hd.
  { clear Hi Hw Ht Hu Hf. induction Hreach as [|base d m0 r0 u y Hr IH Hi0 Hw0 Hfd0 Ht0 Hu0 Hf0]; [auto|].
    injection Hfd0 as <-. destruct (wanted m0) as [x0|] eqn:Ew; [|contradiction].
    destruct (Hrefs d m0 x0 IH Hi0 Ew) as [[_ E]|[_ E]]; rewrite E in Ht0; injection Ht0 as <-; eauto. }
  destruct (Hrefs d m x Hd Hi Hw) as [[-> E]|[-> E]]; rewrite E in Ht; injection Ht as <-.
  - rewrite (Hp _ _ Hu Hf). reflexivity.
  - rewrite (Hs _ _ Hu Hf). reflexivity.
Qed.

(** Two failed attempts, the second without web, and then the load; the premises of
    C98_retry are met. *)
Definition two_attempts : list attempt := [mkAttempt 5 web 4 (EOther 9); mkAttempt 7 down 100 (EOther 8)].
Lemma refs_reads : exists K' urls p, reads std_renv web (UrlFinder None) d_refs [] K' urls p.
Proof.
  destruct (fst (read_doc_s 5 std_renv web (UrlFinder None) d_refs (mkFstate (holding []) []))) as [p|e] eqn:Er;
    [|vm_compute in Er; discriminate Er].
  destruct (read_ok 5 std_renv (mkWorld (fun _ => true) down (fun _ => Raise (EOther 9)) web) (UrlFinder None) d_refs [] [] p C43_std_readers Er)
    as (K' & urls & H & _). exists K', urls, p. exact H.
Qed.
Example C98_retry_case : exists K' urls p, reads std_renv web (UrlFinder None) d_refs [] K' urls p /\
  well_placed web (UrlFinder None) d_refs /\
  (forall a, In a two_attempts -> at_times (at_fetch a) web) /\
  map fst (rg_policies (fs_reg (attempts std_renv (UrlFinder None) d_refs two_attempts fstate0))) = [Some "http://x/p"] /\
  fst (read_doc_s 5 std_renv web (UrlFinder None) d_refs
         (attempts std_renv (UrlFinder None) d_refs two_attempts fstate0)) = Ok p.
Proof.
  destruct refs_reads as (K' & urls & p & Hr). exists K', urls, p. split; [exact Hr|]. split; [exact refs_placed|].
  assert (forall a, In a two_attempts -> at_times (at_fetch a) web) as Ha.
  { intros a [<-|[<-|[]]] u d; cbn [at_fetch]; [auto|discriminate]. }
  split; [exact Ha|]. split; [vm_compute; reflexivity|].
  destruct (read_doc_s 5 std_renv web (UrlFinder None) d_refs
         (attempts std_renv (UrlFinder None) d_refs two_attempts fstate0)) as [r s'] eqn:Er.
  assert (exists q, r = Ok q) as [q ->].
  { assert (match fst (read_doc_s 5 std_renv web (UrlFinder None) d_refs
         (attempts std_renv (UrlFinder None) d_refs two_attempts fstate0)) with Ok _ => True | _ => False end) as H
      by (vm_compute; exact I). rewrite Er in H. destruct r as [q|]; [exists q; reflexivity|destruct H]. }
  destruct (C98_retry std_renv web (UrlFinder None) d_refs two_attempts [] K' urls p [] 5 web q s'
              C43_std_readers (NoDup_nil _) refs_placed Hr Ha (fun u d H => H) Er) as [-> _]. reflexivity.
Qed.

(** A document without references: two policies in a set, stopped after the first. *)
Definition d_inline : node := d_set "main" [d_policy "a" [d_rule "r"]; d_policy "b" [d_rule "r"]].
Example C98_stuck_case :
  (forall m, inside m d_inline -> wanted m = None) /\
  (exists K1, gets_to std_renv web LocalFinder d_inline [] K1 /\ K1 <> []) /\
  map fst (rg_policies (fs_reg (snd (stopped_load 5 std_renv web LocalFinder 2 (EOther 9) d_inline fstate0)))) = [Some "a"] /\
  exists e, fst (read_doc_s 5 std_renv web LocalFinder d_inline
                   (snd (stopped_load 5 std_renv web LocalFinder 2 (EOther 9) d_inline fstate0))) = Raise e.
Proof.
  split.
  { intros m Hi. destruct (wanted m) as [x|] eqn:Ew; [|reflexivity]. pose proof (refs_in m d_inline x Hi Ew) as H.
    vm_compute in H. destruct H. }
  split.
  { destruct (stopped_gets std_renv C43_std_readers web LocalFinder 5 2 (EOther 9) d_inline [] []) as (K1 & F1 & Hs & Hg).
    exists K1. split; [exact Hg|]. intros ->.
    assert (map fst (rg_policies (fs_reg (snd (stopped_load 5 std_renv web LocalFinder 2 (EOther 9) d_inline fstate0)))) = [Some "a"]) as H
      by (vm_compute; reflexivity).
    change fstate0 with (mkFstate (holding []) []) in H. rewrite Hs in H. discriminate H. }
  split; [vm_compute; reflexivity|]. eexists. vm_compute. reflexivity.
Qed.

(** A history: a stopped load, an undisturbed one that is refused, and one with another
    finder; the PDP keeps its policy until the last. *)
Example C98_history_case : exists p,
  let xs := [IDo (ONewFinder LocalFinder); IDo (ONewFinder LocalFinder); IDo (ONewPdp None);
             IStopped 2 (EOther 9) (OSetFromSource 0 (files d_inline web) main_path FacETree (FaFinder 0));
             IDo (OSetFromSource 0 (files d_inline web) main_path FacETree (FaFinder 0))] in
  ap_pdps (run_i 5 std_renv xs program0) = [None] /\
  fst (step_stopped 5 std_renv 2 (EOther 9) (OSetFromSource 0 (files d_inline web) main_path FacETree (FaFinder 1))
         (run_i 5 std_renv xs program0)) = Raise (EOther 9) /\
  ap_pdps (run_i 5 std_renv (xs ++ [IStopped 9 (EOther 9) (OSetFromSource 0 (files d_inline web) main_path FacETree (FaFinder 1))])
             program0) = [Some p] /\
  name_of p = SetName (Some "main").
Proof.
  eexists. cbn zeta. split; [vm_compute; reflexivity|]. split; [vm_compute; reflexivity|]. split; [vm_compute; reflexivity|]. reflexivity.
Qed.

(** A set of references stopped after the first one; see C98_again. *)
Example C98_again_case : exists before after K0 us ps,
  members d_refs = (before ++ after)%list /\ before <> [] /\ (forall k, In k before -> wanted k <> None) /\
  reads_members std_renv web (UrlFinder None) before [] K0 us ps /\ K0 <> [].
Proof.
  destruct refs_reads as (K' & urls & p & Hr).
  apply (proj1 (reads_set_iff std_renv web (UrlFinder None) d_refs _ _ _ _ eq_refl)) in Hr.
  destruct Hr as (_ & Kx & qs & Hm & _ & _ & _).
  change (members d_refs) with ([d_pref "http://x/p"] ++ [d_sref "http://x/s"])%list in Hm.
  apply members_app in Hm. destruct Hm as (K0 & U1 & U2 & ps1 & ps2 & H1 & _ & _).
  exists [d_pref "http://x/p"], [d_sref "http://x/s"], K0, U1, ps1. split; [reflexivity|]. split; [discriminate|].
  split; [intros k [<-|[]]; discriminate|]. split; [exact H1|]. intros ->.
  apply members_one in H1. destruct H1 as (Kb & V1 & V2 & q & qs' & Hk & Hks & _). inversion Hks; subst.
  inversion Hk as [? ? ? ? ? Hw _|? ? ? _ Hin|? ? ? ? ? ? ? ? ? ? _ _ _ _ _ _ _ Hin]; subst; [discriminate Hw|destruct Hin|destruct Hin].
Qed.

Print Assumptions C98_held.
Print Assumptions C98_moment.
Print Assumptions C98_every_moment.
Print Assumptions C98_outcome.
Print Assumptions C98_late.
Print Assumptions C98_failed.
Print Assumptions C98_finders.
Print Assumptions C98_in_force.
Print Assumptions C98_refused.
Print Assumptions C98_stuck.
Print Assumptions C98_again.
Print Assumptions C98_retry.
Print Assumptions C98_repeat_refuted.
Print Assumptions C98_misplaced_refuted.
