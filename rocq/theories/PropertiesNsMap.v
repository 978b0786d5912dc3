(** C79: the namespace prefixes of the process. *)
From Verif Require Import NsMap SpecNsMap SpecPretty NsMapFacts PrettyFacts.
From Coq Require Import Lia.

Definition ns_start : nsworld := mkNs [[("urn:a", "a"); ("urn:b", "b")]] 0 [].
Example ns_start_quiet : quiet ns_start.
Proof. split; [cbn; lia|reflexivity]. Qed.

(** Whatever is done to the prefixes while a reader exists is undone by its deletion, if readers
    are deleted in the reverse order of their creation. *)
Theorem C79_undone : forall r body w, ns_current w < length (ns_dicts w) ->
  nested body -> ~ In (NBackup r) body ->
  ns_map (ns_run false (life r body) w) = ns_map w.
Proof. intros r body w Hc Hn Hr. apply life_undone; assumption. Qed.
Example C79_undone_example :
  let body := [NSet "urn:c" "c"; NBackup 2; NMark; NRestore 2; NSet "urn:a" "x"] in
  nested body /\ ~ In (NBackup 1) body /\
  ns_map (ns_run false (snd (reader_new true 1) ++ body) ns_start) =
    [("urn:a", "x"); ("urn:b", "b"); ("", POLICY_NS); ("urn:c", "c")] /\
  ns_map (ns_run false (life 1 body) ns_start) = [("urn:a", "a"); ("urn:b", "b")].
Proof.
  cbv zeta. split; [|split; [|split; reflexivity]].
  - apply Nest_plain; [exact I|]. apply (Nest_life 2 []); [constructor|auto|].
    apply Nest_plain; [exact I|constructor].
  - cbn. intros [H|[H|[H|[H|[H|[]]]]]]; discriminate.
Qed.

(** Parsed documents and successful printing leave no trace, and the prefixes given by writing
    in between stay. *)
Theorem C79_sequential : forall w h given, ns_current w < length (ns_dicts w) ->
  sequential w h given ->
  forall u, prefix_for (ns_map (ns_run false h w)) u = last_given given u (prefix_for (ns_map w) u).
Proof. intros w h given Hc Hs. apply sequential_given; assumption. Qed.
Example C79_sequential_example :
  sequential ns_start
    (life 1 [NBackup 2; NMark; NRestore 2] ++
     NSet "urn:c" "c" :: NPrint "" "  " (PElem "{urn:d}x" [] [] None None []) :: NSet "urn:a" "z" :: [])
    [("urn:c", "c"); ("urn:a", "z")].
Proof.
  apply Seq_parse.
  - apply (Nest_life 2 []); [constructor|auto|constructor].
  - cbn. intros [H|[H|[H|[]]]]; discriminate.
  - apply Seq_set. eapply Seq_print; [vm_compute; reflexivity|]. apply Seq_set. apply Seq_nil.
Qed.

(** Readers in any number of threads, in any order: every URI but the empty one keeps its prefix,
    and the empty one is as before or has the URI of XACML policies. *)
Theorem C79_readers_only : forall h w u, quiet w -> readers_only h ->
  (u <> "" -> prefix_for (ns_map (ns_run false h w)) u = prefix_for (ns_map w) u) /\
  (u = "" -> prefix_for (ns_map (ns_run false h w)) u = prefix_for (ns_map w) u \/
             prefix_for (ns_map (ns_run false h w)) u = Some "urn:oasis:names:tc:xacml:2.0:policy:schema:os").
Proof.
  intros h w u Hq Hr.
  destruct (run_good (fun d => (u <> "" -> prefix_for d u = prefix_for (ns_map w) u) /\
                               (u = "" -> prefix_for d u = prefix_for (ns_map w) u \/
                                          prefix_for d u = Some POLICY_NS)) h w) as (_ & A & _).
  - intros o d Ho [H1 H2]. specialize (Hr o Ho).
    destruct o; try contradiction; cbn [changed]; [split; assumption| |split; assumption].
    rewrite prefix_set. destruct (String.eqb "" u) eqn:E.
    + apply String.eqb_eq in E. split; [congruence|]. intros _. right. reflexivity.
    + split; assumption.
  - apply quiet_good; [exact Hq|]. split; [reflexivity|]. intros _. left. reflexivity.
  - exact A.
Qed.
Example C79_readers_only_example :
  let h := [NBackup 1; NBackup 2; NMark; NRestore 1; NMark; NRestore 2] in
  readers_only h /\ prefix_for (ns_map (ns_run false h ns_start)) "urn:b" = Some "b".
Proof.
  cbv zeta. split; [|reflexivity]. intros o [<-|[<-|[<-|[<-|[<-|[<-|[]]]]]]]; exact I.
Qed.

(** While a reader exists, and after its creation by a thread, the empty URI has a prefix: the
    URI of XACML policies. *)
Theorem C79_marked : forall r w, ns_current w < length (ns_dicts w) ->
  prefix_for (ns_map (ns_run false (snd (reader_new true r)) w)) "" =
    Some "urn:oasis:names:tc:xacml:2.0:policy:schema:os".
Proof.
  intros r w Hc. cbn [snd reader_new ns_run ns_step copy_current]. unfold ns_map, change_current.
  unfold dict_at at 1. cbn [ns_current ns_dicts]. rewrite put_same.
  - rewrite prefix_set. reflexivity.
  - rewrite app_length. lia.
Qed.

(** Readers that overlap without being nested leave the entry of the empty URI behind. *)
Theorem C79_overlap : forall a b w, a <> b -> ns_current w < length (ns_dicts w) ->
  prefix_for (ns_map (ns_run false
    (snd (reader_new true a) ++ snd (reader_new true b) ++ reader_del a ++ reader_del b) w)) "" =
    Some "urn:oasis:names:tc:xacml:2.0:policy:schema:os".
Proof.
  intros a b w Hab Hc. rewrite run_app. set (w1 := ns_run false (snd (reader_new true a)) w).
  pose proof (C79_marked a w Hc) as M. fold w1 in M.
  destruct (new_reader a w Hc) as (A & _). cbv zeta in A.
  change (ns_run false [NBackup a; NMark] w) with w1 in A. clearbody w1. destruct A as (A & _).
  rewrite run_app. destruct (new_reader b w1 A) as ((B1 & B2 & B3) & C & D & _). cbv zeta in *.
  change (snd (reader_new true b)) with [NBackup b; NMark].
  set (w2 := ns_run false [NBackup b; NMark] w1) in *. clearbody w2.
  cbn [reader_del app ns_run ns_step].
  destruct (lookup_nat a (ns_backups w2)) as [i|]; cbn [ns_backups];
    rewrite D; cbn [lookup_nat]; rewrite Nat.eqb_refl; unfold ns_map, dict_at; cbn [ns_current ns_dicts];
    unfold dict_at in C; rewrite C; exact M.
Qed.
Example C79_overlap_example : prefix_for (ns_map ns_start) "" = None.
Proof. reflexivity. Qed.

(** No entry comes from nowhere. *)
Theorem C79_origin : forall h w u p, quiet w -> no_others h ->
  prefix_for (ns_map (ns_run false h w)) u = Some p ->
  prefix_for (ns_map w) u = Some p \/
  In (NSet u p) h \/
  (u = "" /\ p = "urn:oasis:names:tc:xacml:2.0:policy:schema:os" /\ In NMark h) \/
  (exists indent space e, In (NPrint indent space e) h /\ In u (namespaces e) /\ made_up p).
Proof.
  intros h w u p Hq Hn.
  destruct (run_good (fun d => prefix_for d u = Some p ->
    prefix_for (ns_map w) u = Some p \/ In (NSet u p) h \/
    (u = "" /\ p = POLICY_NS /\ In NMark h) \/
    (exists indent space e, In (NPrint indent space e) h /\ In u (namespaces e) /\ made_up p)) h w) as (_ & A & _).
  - intros o d Ho IH. destruct o as [r| |r|v q|ind sp e|f]; cbn [changed]; try exact IH.
    + rewrite prefix_set. destruct (String.eqb "" u) eqn:E; [|exact IH]. apply String.eqb_eq in E.
      intros X. right. right. left. repeat split; [congruence|congruence|exact Ho].
    + rewrite prefix_set. destruct (String.eqb v u) eqn:E; [|exact IH]. apply String.eqb_eq in E.
      intros X. right. left. congruence.
    + rewrite prefix_get. intros X. apply enters_elem in X. destruct X as [X|[X Y]].
      * apply IH. rewrite prefix_get. exact X.
      * right. right. right. exists ind, sp, e. auto.
    + exfalso. apply (Hn f), Ho.
  - apply quiet_good; [exact Hq|]. auto.
  - exact A.
Qed.
Example C79_origin_example :
  prefix_for (ns_map (ns_run false
    [NSet "urn:c" "c"; NPrint "" "" (PElem "{urn:d}x" [] [] None None [PComment None None]); NMark] ns_start)) "urn:d"
  = Some "ns0".
Proof. reflexivity. Qed.

(** Printing that succeeds leaves the prefixes as they were. *)
Theorem C79_print : forall indent space e text w, ns_current w < length (ns_dicts w) ->
  fst (pretty_print false (ns_map w) indent space e) = Ok text ->
  ns_map (ns_step false (NPrint indent space e) w) = ns_map w.
Proof. intros indent space e text w Hc Hp. eapply print_kept; eauto. Qed.

(** Printing that fails leaves prefixes behind. *)
Theorem C79_failed_print_refuted : exists w indent space e x, quiet w /\
  fst (pretty_print false (ns_map w) indent space e) = Raise x /\
  prefix_for (ns_map w) "urn:d" = None /\
  prefix_for (ns_map (ns_step false (NPrint indent space e) w)) "urn:d" = Some "ns0".
Proof.
  exists ns_start, "", "", (PElem "{urn:d}x" [] [] None None [PComment None None]), ETypeError.
  split; [exact ns_start_quiet|]. repeat split.
Qed.

(** A prefix that is given while a reader exists is lost with it. *)
Theorem C79_lost : forall r u p w, ns_current w < length (ns_dicts w) ->
  prefix_for (ns_map (ns_run false (snd (reader_new true r) ++ [NSet u p]) w)) u = Some p /\
  prefix_for (ns_map (ns_run false (life r [NSet u p]) w)) u = prefix_for (ns_map w) u.
Proof.
  intros r u p w Hc. split.
  - rewrite run_app. destruct (new_reader r w Hc) as ((A & _) & _). cbv zeta in A.
    change (snd (reader_new true r)) with [NBackup r; NMark].
    set (w1 := ns_run false [NBackup r; NMark] w) in *. clearbody w1.
    cbn [ns_run ns_step]. unfold ns_map, change_current, dict_at. cbn [ns_current ns_dicts].
    rewrite put_same by exact A. rewrite prefix_set, String.eqb_refl. reflexivity.
  - rewrite C79_undone; [reflexivity|exact Hc| |].
    + apply Nest_plain; [exact I|constructor].
    + intros [H|[]]; discriminate.
Qed.

(** The dict that was in the module attribute before a reader keeps the entry of the empty URI for
    ever: whoever holds it does not see the restored map. *)
Theorem C79_old_dict : forall r w, ns_current w < length (ns_dicts w) ->
  let w' := ns_run false (life r []) w in
  prefix_for (dict_at w' (ns_current w)) "" = Some "urn:oasis:names:tc:xacml:2.0:policy:schema:os" /\
  ns_current w' <> ns_current w.
Proof.
  intros r w Hc. cbv zeta. unfold life. cbn [reader_new reader_del snd app ns_run ns_step copy_current].
  cbn [change_current ns_backups lookup_nat]. rewrite Nat.eqb_refl. unfold dict_at.
  unfold change_current, dict_at. cbn [ns_current ns_dicts]. rewrite put_same by (rewrite app_length; lia). rewrite prefix_set.
  split; [reflexivity|lia].
Qed.

(** A reader class without a type cannot be instantiated; the half made object changes nothing,
    neither then nor when it is deleted. *)
Theorem C79_untyped : forall r w, (forall i, ~ In (r, i) (ns_backups w)) ->
  fst (reader_new false r) = Raise ENotImplementedError /\
  ns_run false (snd (reader_new false r) ++ reader_del r) w = w.
Proof.
  intros r w H. split; [reflexivity|]. cbn [reader_new snd reader_del app ns_run ns_step].
  assert (E : lookup_nat r (ns_backups w) = None).
  { induction (ns_backups w) as [|[k v] l IH]; [reflexivity|]. cbn [lookup_nat].
    destruct (Nat.eqb k r) eqn:E.
    - apply Nat.eqb_eq in E. subst k. exfalso. apply (H v). left. reflexivity.
    - apply IH. intros i K. apply (H i). right. exact K. }
  rewrite E. reflexivity.
Qed.
Example C79_untyped_example : forall i, ~ In (7, i) (ns_backups ns_start).
Proof. intros i []. Qed.

(** With lxml nothing of this happens. *)
Theorem C79_lxml : forall h w, ns_run true h w = w.
Proof. induction h as [|o h IH]; intros w; [reflexivity|apply IH]. Qed.

Print Assumptions C79_undone.
Print Assumptions C79_sequential.
Print Assumptions C79_readers_only.
Print Assumptions C79_marked.
Print Assumptions C79_overlap.
Print Assumptions C79_origin.
Print Assumptions C79_print.
Print Assumptions C79_failed_print_refuted.
Print Assumptions C79_lost.
Print Assumptions C79_old_dict.
Print Assumptions C79_untyped.
Print Assumptions C79_lxml.
