(** C77: loading policies from sources, and loading again. *)
From Verif Require Import Sources SpecText SpecRead SpecSources Sample.
From Verif Require Import TextFacts ReadFacts ReadFacts3 ReadFacts4 SourcesFacts SourcesFacts2 PropertiesRead PropertiesText.
Open Scope string_scope.

(** What finders hold after any history: policies, no two with the same name. *)
Theorem C77_finders : forall limit RE ops i fd fs,
  nth_error (ap_finders (snd (Sources.run limit RE ops program0))) i = Some (fd, fs) ->
  exists K, finder_holds (snd (Sources.run limit RE ops program0)) i fd K.
Proof.
  intros limit RE ops i fd fs H. destruct (run_held limit RE ops program0 held0) as [Hh _].
  destruct (held_nth _ i fd fs Hh H) as (K & F & -> & Hn). exists K. split; [exact Hn|]. exists F. exact H.
Qed.

(** No operation, also none that fails, takes anything away from a finder. *)
Theorem C77_finder_keeps : forall limit RE ops o i fd K,
  finder_holds (snd (Sources.run limit RE ops program0)) i fd K ->
  exists new, finder_holds (snd (step limit RE o (snd (Sources.run limit RE ops program0)))) i fd (K ++ new).
Proof.
  intros limit RE ops o i fd K [Hn [F Hi]]. destruct (run_held limit RE ops program0 held0) as [Hh _].
  destruct (step_held limit RE o _ Hh) as [_ Hg]. destruct (Hg i fd K F Hi Hn) as (new & urls & Hi' & Hn').
  exists new. split; [exact Hn'|]. eexists. exact Hi'.
Qed.
(** Only loading with a finder changes it. *)
Theorem C77_other_finders : forall limit RE o st i fd fs,
  nth_error (ap_finders st) i = Some (fd, fs) -> (forall w s, ~ loads_with i o w s) ->
  nth_error (ap_finders (snd (step limit RE o st))) i = Some (fd, fs).
Proof.
  intros limit RE o st i fd fs Hi N. rewrite step_others; [exact Hi| |exact N].
  apply nth_error_Some. congruence.
Qed.

(** A successful operation gives the PDP it is about the policy assigned or the one the
    source says; other PDPs keep theirs. *)
Theorem C77_load : forall limit RE ops o st', default_readers RE ->
  step limit RE o (snd (Sources.run limit RE ops program0)) = (Ok tt, st') ->
  (forall j, about o (snd (Sources.run limit RE ops program0)) j ->
     exists x, gives RE (snd (Sources.run limit RE ops program0)) o x /\ nth_error (ap_pdps st') j = Some x) /\
  (forall j, ~ about o (snd (Sources.run limit RE ops program0)) j ->
     nth_error (ap_pdps st') j = nth_error (ap_pdps (snd (Sources.run limit RE ops program0))) j).
Proof.
  intros limit RE ops o st' HE H. destruct (run_held limit RE ops program0 held0) as [Hh _].
  exact (step_gives limit RE o _ st' HE Hh H).
Qed.
(** The finder then holds what it held and what was read, and nothing else. *)
Theorem C77_finder_after : forall limit RE ops i o w s st', default_readers RE -> loads_with i o w s ->
  step limit RE o (snd (Sources.run limit RE ops program0)) = (Ok tt, st') ->
  exists fd K K' urls n p, finder_holds (snd (Sources.run limit RE ops program0)) i fd K /\
    parse_source w s = Ok n /\ reads RE (w_fetch w) fd n K K' urls p /\ finder_holds st' i fd K'.
Proof.
  intros limit RE ops i o w s st' HE Hl H. destruct (run_held limit RE ops program0 held0) as [Hh _].
  exact (step_load limit RE i o w s _ st' HE Hh Hl H).
Qed.
(** The policy a successful load gives is determined. *)
Theorem C77_load_determined : forall RE w fd n K K1 u1 p1 K2 u2 p2, default_readers RE ->
  NoDup (map name_of K) -> reads RE (w_fetch w) fd n K K1 u1 p1 -> reads RE (w_fetch w) fd n K K2 u2 p2 ->
  p1 = p2 /\ u1 = u2.
Proof.
  intros RE w fd n K K1 u1 p1 K2 u2 p2 HE Hn H1 H2.
  destruct (loads_ok RE w fd n K K1 u1 p1 HE Hn H1) as [L1 HL1].
  destruct (loads_ok RE w fd n K K2 u2 p2 HE Hn H2) as [L2 HL2].
  pose proof (HL1 (max L1 L2) (Nat.le_max_l L1 L2) []) as A.
  rewrite (HL2 (max L1 L2) (Nat.le_max_r L1 L2) []) in A. cbn [app] in A.
  split; congruence.
Qed.
(** An operation whose source says something succeeds, given enough stack. *)
Theorem C77_load_possible : forall RE o st x, default_readers RE -> gives RE st o x ->
  (forall j w s f fa, o = OSetFromSource j w s f fa -> j < List.length (ap_pdps st)) ->
  (forall j a, o = OSetPolicy j a -> j < List.length (ap_pdps st)) ->
  exists L, forall limit, L <= limit -> fst (step limit RE o st) = Ok tt.
Proof.
  intros RE o st x HE Hg H1 H2. apply (step_possible RE o st x HE Hg).
  intros j Ha. destruct o; auto; cbn [about] in Ha; subst; eauto.
Qed.

(** An operation that raises leaves every PDP the policy it had. *)
Theorem C77_failed_load : forall limit RE o st e st',
  step limit RE o st = (Raise e, st') -> ap_pdps st' = ap_pdps st.
Proof. exact step_failed. Qed.

(** So what is in force in a PDP was given by the last operation about it that succeeded. *)
Theorem C77_in_force : forall limit RE ops j x, default_readers RE ->
  nth_error (ap_pdps (snd (Sources.run limit RE ops program0))) j = Some x ->
  exists ops1 o ops2, ops = (ops1 ++ o :: ops2)%list /\
    fst (step limit RE o (snd (Sources.run limit RE ops1 program0))) = Ok tt /\
    about o (snd (Sources.run limit RE ops1 program0)) j /\
    gives RE (snd (Sources.run limit RE ops1 program0)) o x /\
    undisturbed limit RE j ops2 (snd (Sources.run limit RE (ops1 ++ [o])%list program0)).
Proof. exact in_force. Qed.

(** A finder reads a policy of one name once: loading from a source whose root has the
    name of one loaded with the same finder before raises, whatever happened meanwhile
    and whatever the source says now. *)
Theorem C77_once : forall limit RE ops1 i o1 w1 s1 n1 ops2 o2 w2 s2 n2, default_readers RE ->
  loads_with i o1 w1 s1 -> parse_source w1 s1 = Ok n1 ->
  fst (step limit RE o1 (snd (Sources.run limit RE ops1 program0))) = Ok tt ->
  loads_with i o2 w2 s2 -> parse_source w2 s2 = Ok n2 -> root_name n2 = root_name n1 ->
  exists e, fst (step limit RE o2 (snd (Sources.run limit RE (ops1 ++ o1 :: ops2)%list program0))) = Raise e.
Proof.
  intros limit RE ops1 i o1 w1 s1 n1 ops2 o2 w2 s2 n2 HE L1 P1 S1 L2 P2 R.
  destruct (run_held limit RE ops1 program0 held0) as [Hh _].
  destruct (once limit RE i o1 w1 s1 n1 o2 w2 s2 n2 ops2 _ HE Hh L1 P1 S1 L2 P2 R) as [e He].
  exists e. rewrite run_app. cbn [Sources.run].
  destruct (step limit RE o1 (snd (Sources.run limit RE ops1 program0))) as [r st1]. cbn [snd] in *.
  destruct (Sources.run limit RE ops2 st1) as [rs st2]. exact He.
Qed.

(** Without a finder the outcome does not depend on what was done before: every load is
    with a new finder. *)
Theorem C77_independent : forall limit RE w s f st1 st2,
  fst (step limit RE (OFromSource w s f FaNone) st1) = fst (step limit RE (OFromSource w s f FaNone) st2) /\
  exists new, forall st, ap_pdps (snd (step limit RE (OFromSource w s f FaNone) st)) = (ap_pdps st ++ new)%list /\
    ap_finders (snd (step limit RE (OFromSource w s f FaNone) st)) = ap_finders st.
Proof.
  intros limit RE w s f st1 st2. rewrite !step_default by (left; reflexivity).
  destruct (default_finder w s) as [fd|e] eqn:Ed; [destruct (load_default limit RE w s f fd) as [p|e] eqn:El|].
  - split; [reflexivity|]. exists [Some p]. intros st. rewrite step_default, Ed, El by (left; reflexivity). split; reflexivity.
  - split; [reflexivity|]. exists []. intros st. rewrite step_default, Ed, El by (left; reflexivity). rewrite app_nil_r. split; reflexivity.
  - split; [reflexivity|]. exists []. intros st. rewrite step_default, Ed by (left; reflexivity). rewrite app_nil_r. split; reflexivity.
Qed.
(** With a finder the outcome is that of the element tree: a path, a stream and an element
    with the same content do the same. *)
Theorem C77_same_content : forall limit RE i j w s w' s' st,
  parse_source w s = parse_source w' s' -> w_fetch w = w_fetch w' ->
  step limit RE (OFromSource w s FacETree (FaFinder i)) st = step limit RE (OFromSource w' s' FacETree (FaFinder i)) st /\
  step limit RE (OSetFromSource j w s FacETree (FaFinder i)) st = step limit RE (OSetFromSource j w' s' FacETree (FaFinder i)) st.
Proof.
  intros limit RE i j w s w' s' st Hp Hf.
  assert (base_from_source limit RE w s FacETree (FaFinder i) st = base_from_source limit RE w' s' FacETree (FaFinder i) st) as Hb.
  { unfold base_from_source. rewrite Hp, Hf. reflexivity. }
  split; cbn [step]; [|unfold set_from_source]; rewrite Hb; reflexivity.
Qed.

(** ** Where references are looked for *)

(** Without a finder, references of the document at an existing path are resolved with
    the directory of the path as base. *)
Theorem C77_directory : forall w path fd,
  default_finder w (SText path) = Ok fd <->
  (w_exists w path = true /\ exists d, directory path d /\ fd = UrlFinder (Some d)) \/
  (w_exists w path = false /\ fd = UrlFinder None).
Proof.
  intros w path fd. cbn [default_finder]. destruct (w_exists w path); split.
  - intros [= <-]. left. split; [reflexivity|]. exists (dirname path). split; [apply dirname_iff; reflexivity|reflexivity].
  - intros [[_ (d & Hd & ->)]|[H _]]; [|discriminate H]. apply dirname_iff in Hd. rewrite Hd. reflexivity.
  - intros [= <-]. right. split; reflexivity.
  - intros [[H _]|[_ ->]]; [discriminate H|reflexivity].
Qed.
Theorem C77_one_directory : forall path, exists d, directory path d /\ forall d', directory path d' -> d' = d.
Proof.
  intros path. destruct (directory_total path) as [d Hd]. exists d. split; [exact Hd|].
  intros d' Hd'. rewrite <- (dirname_of path d Hd). symmetry. apply dirname_of, Hd'.
Qed.
(** A relative reference in a document d/f is to d/... *)
Theorem C77_sibling : forall d f r u, ~ has_slash f ->
  (exists d' c, d = d' ++ String c "" /\ c <> "/"%char) ->
  meaning r u true -> String.prefix "/" u = false ->
  exists base, directory (d ++ "/" ++ f) base /\ make_url (Some base) r = Ok ("file://" ++ d ++ "/" ++ u).
Proof.
  intros d f r u Hf Hd Hm Hu. exists d. split.
  - apply (dir_some d "/" f); [exists 1; reflexivity|discriminate|exact Hf|exact Hd].
  - rewrite (C48_url (Some d) r u true Hm), Hu. f_equal. f_equal.
    apply under_dir, Hd.
Qed.
(** That this holds for a bare file name in the working directory is false: the reference
    becomes the host of the URL. *)
Theorem C77_bare_name_refuted : exists w path r u d,
  w_exists w path = true /\ meaning r u true /\ default_finder w (SText path) = Ok (UrlFinder (Some d)) /\
  make_url (Some d) r = Ok ("file://" ++ u) /\ String.prefix "file:///" ("file://" ++ u) = false.
Proof.
  exists (mkWorld (fun _ => true) (fun _ => Raise (EOther 0)) (fun _ => Raise (EOther 0)) (fun _ => Raise (EOther 0))),
    "set.xml", "other.xml", "other.xml", "".
  split; [reflexivity|]. split; [|split; [reflexivity|split; reflexivity]].
  apply mean_rel; [reflexivity|]. intros s [<-|[<-|[<-|[<-|[]]]]]; reflexivity.
Qed.

(** Without a finder, a source that is not a str is refused before anything is read. *)
Theorem C77_only_paths : forall limit RE w s f fa st, (forall p, s <> SText p) -> fa = FaNone \/ fa = FaOther false ->
  step limit RE (OFromSource w s f fa) st = (Raise ENameError, st).
Proof.
  intros limit RE w s f fa st Hs Hfa. rewrite step_default by exact Hfa.
  destruct s as [p|n|k]; [destruct (Hs p eq_refl)|reflexivity|reflexivity].
Qed.
(** Wrong arguments are refused before anything is read. *)
Theorem C77_bad_arguments : forall limit RE j w s f fa st,
  f <> FacETree \/ fa = FaNone \/ (exists t, fa = FaOther t) ->
  exists e, step limit RE (OSetFromSource j w s f fa) st = (Raise e, st).
Proof.
  intros limit RE j w s f fa st H. cbn [step]. destruct (nth_error (ap_pdps st) j); [|eexists; reflexivity].
  unfold set_from_source, base_from_source.
  destruct f; cbn [get_reader]; try (eexists; reflexivity).
  destruct H as [H|[->|[t ->]]]; [congruence| |]; eexists; reflexivity.
Qed.

(** ** Policy.fromSource and PolicySet.fromSource *)
Theorem C77_policy_from_source : forall RE w s p, default_readers RE ->
  (policy_from_source RE w s FacETree = Ok p <-> exists n, parse_source w s = Ok n /\ policy_doc RE n p).
Proof.
  intros RE w s p HE. unfold policy_from_source. cbn [get_reader bind].
  destruct (parse_source w s) as [n|e]; cbn [bind].
  - rewrite C43_read_policy_iff by exact HE. split; [intros H; exists n; auto|]. intros (m & [= <-] & H). exact H.
  - split; [discriminate|]. intros (m & H & _). discriminate H.
Qed.
(** A policy set cannot be read by its own class. *)
Theorem C77_set_from_source_refused : forall w s f, exists e, policyset_from_source w s f = Raise e.
Proof. intros w s [| | |e]; eexists; reflexivity. Qed.

(** ** Loading again *)
Definition files (d : node) (web : string -> res node) : world :=
  mkWorld (fun p => String.eqb p "/etc/xacml/main.xml")
    (fun p => if String.eqb p "/etc/xacml/main.xml" then Ok d else Raise (EOther 2))
    (fun _ => Raise (EOther 0)) web.
Definition main_path : source := SText "/etc/xacml/main.xml".
Definition v1 : node := d_policy "main" [d_rule "a"].
Definition v2 : node := d_policy "main" [d_rule "a"; d_rule "b"].
Definition load_main (d : node) (web : string -> res node) (fa : finder_arg) : op :=
  OSetFromSource 0 (files d web) main_path FacETree fa.
Definition setup : list op := [ONewFinder (UrlFinder None); ONewFinder LocalFinder; ONewPdp None].
Definition outcomes (ops : list op) : list (res unit) := fst (Sources.run 5 std_renv ops program0).

(** The same finder cannot reload a changed policy: the old one stays in force; a new
    finder can. *)
Theorem C77_reload_refuted : exists e p1 p2 st, p1 <> p2 /\
  Sources.run 5 std_renv (setup ++ [load_main v1 web (FaFinder 0); load_main v2 web (FaFinder 0)])%list program0 =
    ([Ok tt; Ok tt; Ok tt; Ok tt; Raise e], st) /\
  ap_pdps st = [Some p1] /\
  exists st', step 5 std_renv (load_main v2 web (FaFinder 1)) st = (Ok tt, st') /\ ap_pdps st' = [Some p2].
Proof.
  eexists _, _, _, _. split; [|split; [vm_compute; reflexivity|split; [reflexivity|]]].
  2: { eexists. split; vm_compute; reflexivity. }
  intros H. discriminate H.
Qed.
(** Nor can it retry after a failure to fetch that is over: what the failed load has
    read is in its way; a new finder can. *)
Definition down (url : string) : res node := Raise (EOther 9).
Theorem C77_retry_refuted : exists e e' st p, e <> e' /\
  Sources.run 5 std_renv (setup ++ [load_main d_main down (FaFinder 0); load_main d_main web (FaFinder 0)])%list program0 =
    ([Ok tt; Ok tt; Ok tt; Raise e; Raise e'], st) /\
  ap_pdps st = [None] /\
  exists st', step 5 std_renv (OFromSource (files d_main web) main_path FacETree FaNone) st = (Ok tt, st') /\
    ap_pdps st' = [None; Some p] /\ name_of p = SetName (Some "main").
Proof.
  eexists _, _, _, _. split; [|split; [vm_compute; reflexivity|split; [reflexivity|]]].
  2: { eexists. split; [vm_compute; reflexivity|]. split; reflexivity. }
  discriminate.
Qed.

(** Two loads and an assignment on two PDPs, some failing. *)
Example C77_example : exists p q st,
  Sources.run 5 std_renv
    (setup ++ [ONewPdp None; load_main v1 web (FaFinder 1); OSetPolicy 0 (ANotPolicy (ONat (NStr "x")));
              load_main (xe "Rule" [] None []) web (FaFinder 0);
              OSetFromSource 1 (files d_main web) (SElement d_main) FacETree (FaFinder 0);
              OFromSource (files v1 web) (SElement v1) FacETree FaNone])%list program0 =
    ([Ok tt; Ok tt; Ok tt; Ok tt; Ok tt; Raise ETypeError; Raise EXMLParseError; Ok tt; Raise ENameError], st) /\
  ap_pdps st = [Some p; Some q] /\ name_of p = PolicyName (Some "main") /\ name_of q = SetName (Some "main").
Proof. eexists _, _, _. split; [vm_compute; reflexivity|]. split; [reflexivity|]. split; reflexivity. Qed.

Example C77_directory_example : directory "/etc/xacml/main.xml" "/etc/xacml" /\ directory "//main.xml" "//" /\
  directory "main.xml" "" /\ directory "a//b/" "a//b".
Proof. repeat split; apply dirname_iff; reflexivity. Qed.

(** The premises of C77_once and of C77_load_possible are met. *)
Example C77_once_example :
  let st := snd (Sources.run 5 std_renv setup program0) in
  loads_with 0 (load_main v1 web (FaFinder 0)) (files v1 web) main_path /\
  parse_source (files v1 web) main_path = Ok v1 /\
  fst (step 5 std_renv (load_main v1 web (FaFinder 0)) st) = Ok tt /\
  parse_source (files v2 web) main_path = Ok v2 /\ root_name v2 = root_name v1.
Proof. split; [constructor|]. split; [reflexivity|]. split; [vm_compute; reflexivity|]. split; reflexivity. Qed.
Example C77_gives_example : exists p, gives std_renv program0
  (OFromSource (files d_main web) main_path FacETree FaNone) (Some p) /\ name_of p = SetName (Some "main").
Proof.
  destruct (step 5 std_renv (OFromSource (files d_main web) main_path FacETree FaNone) program0) as [r st] eqn:E.
  assert (r = Ok tt) as -> by (assert (fst (step 5 std_renv (OFromSource (files d_main web) main_path FacETree FaNone) program0) = Ok tt) as H by (vm_compute; reflexivity); rewrite E in H; exact H).
  destruct (C77_load 5 std_renv [] _ st C43_std_readers E) as [H _].
  destruct (H 0 eq_refl) as ([p|] & Hg & Hn); cbn [Sources.run snd] in Hg.
  - exists p. split; [exact Hg|]. assert (nth_error (ap_pdps (snd (step 5 std_renv (OFromSource (files d_main web) main_path FacETree FaNone) program0))) 0 = Some (Some p)) as Hp by (rewrite E; exact Hn).
    vm_compute in Hp. injection Hp as <-. reflexivity.
  - inversion Hg.
Qed.

Print Assumptions C77_finders.
Print Assumptions C77_finder_keeps.
Print Assumptions C77_other_finders.
Print Assumptions C77_load.
Print Assumptions C77_finder_after.
Print Assumptions C77_load_determined.
Print Assumptions C77_load_possible.
Print Assumptions C77_failed_load.
Print Assumptions C77_in_force.
Print Assumptions C77_once.
Print Assumptions C77_independent.
Print Assumptions C77_same_content.
Print Assumptions C77_directory.
Print Assumptions C77_one_directory.
Print Assumptions C77_sibling.
Print Assumptions C77_bare_name_refuted.
Print Assumptions C77_only_paths.
Print Assumptions C77_bad_arguments.
Print Assumptions C77_policy_from_source.
Print Assumptions C77_set_from_source_refused.
Print Assumptions C77_reload_refuted.
Print Assumptions C77_retry_refuted.
