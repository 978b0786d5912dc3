(** C85: the objects that reading a document makes. *)
From Verif Require Import SpecReadObjects SpecRead SpecEvalObjects ObjectsFacts ObjectsFacts2 ObjectsFacts3
  FuncMapFacts ReadFacts ReadFacts2 ReadFacts3 ReadFacts4 ReadObjectsFacts ReadObjectsFacts4 ReadObjectsFacts5
  PropertiesRead PropertiesEvalObjects.
From Coq Require Import Lia.
Local Open Scope string_scope.

(** ** What is read *)

(** Reading a document gives an object that stands for the policy that the document
    means, and the finder then holds objects that stand for what it holds according to
    the document; or it raises the exception that the document calls for. *)
Theorem C85_load : forall E fetch fd limit n s st, same_map E s -> finder_for s st ->
  match read_doc limit E fetch fd n st with
  | Ok (p, st') => exists v s', doc_l E fetch fd limit n s = (Ok v, s') /\
                     for_policy (ls_heap s') v p /\ finder_for s' st'
  | Raise e => exists s', doc_l E fetch fd limit n s = (Raise e, s')
  end.
Proof. exact doc_loads. Qed.

(** Against the meaning of documents: a document that means [p] is read, by all
    interpreters with a sufficient recursion limit, into an object that stands for [p]. *)
Theorem C85_reads : forall E fetch fd s K F d K' urls p, default_readers E -> same_map E s ->
  NoDup (map name_of K) -> finder_for s (mkFstate (holding K) F) ->
  reads E fetch fd d K K' urls p ->
  exists limit0, forall limit, limit0 <= limit ->
    exists v s', doc_l E fetch fd limit d s = (Ok v, s') /\ for_policy (ls_heap s') v p /\
      finder_for s' (mkFstate (holding K') (F ++ urls)).
Proof.
  intros E fetch fd s K F d K' urls p HE SM ND FF R.
  destruct (proj1 (complete_mut E HE fetch fd) _ _ _ _ _ R ND) as (_ & L & HL).
  exists L. intros limit Hl. pose proof (doc_loads E fetch fd limit d s _ SM FF) as D.
  rewrite (HL limit Hl F) in D. exact D.
Qed.

(** And nothing else is read. *)
Theorem C85_only : forall E fetch fd limit s K F d v s', default_readers E -> same_map E s ->
  finder_for s (mkFstate (holding K) F) -> doc_l E fetch fd limit d s = (Ok v, s') ->
  exists p K' urls, reads E fetch fd d K K' urls p /\ for_policy (ls_heap s') v p /\
    finder_for s' (mkFstate (holding K') (F ++ urls)).
Proof.
  intros E fetch fd limit s K F d v s' HE SM FF D.
  pose proof (doc_loads E fetch fd limit d s _ SM FF) as L.
  destruct (read_doc limit E fetch fd d (mkFstate (holding K) F)) as [[p st]|e] eqn:R.
  - destruct L as (v' & s2 & D' & P & FF'). rewrite D in D'. injection D' as <- <-.
    destruct (doc_sound E HE fetch fd limit d K F p st R) as (K' & U & Hr & ->). exists p, K', U. auto.
  - destruct L as (s2 & D'). rewrite D in D'. discriminate.
Qed.

(** Written and read back: the document of an expressible tree of policies with distinct
    names is read into objects that stand for the same tree. *)
Theorem C85_round_trip : forall E ns fetch fd s K F p, default_readers E -> same_map E s ->
  finder_for s (mkFstate (holding K) F) ->
  writable E p -> NoDup (map name_of (K ++ all_policies p)) ->
  exists limit0, forall limit, limit0 <= limit ->
    exists v s', doc_l E fetch fd limit (write_policy ns p) s = (Ok v, s') /\ for_policy (ls_heap s') v p.
Proof.
  intros E ns fetch fd s K F p HE SM FF W ND.
  destruct (C44_tree_round_trip E ns fetch fd K F p HE W ND) as (_ & L & HL).
  exists L. intros limit Hl. pose proof (doc_loads E fetch fd limit (write_policy ns p) s _ SM FF) as D.
  rewrite (HL limit Hl) in D. destruct D as (v & s' & D & P & _). eauto.
Qed.

(** Evaluating the object gives the decision of the policy that the document means. *)
Theorem C85_evaluates : forall E fetch fd limit s K F d v s' O EE c ctx, default_readers E -> same_map E s ->
  finder_for s (mkFstate (holding K) F) -> doc_l E fetch fd limit d s = (Ok v, s') ->
  for_context (ls_heap s') c ctx -> same_answers (ls_heap s') O EE ->
  exists p K' urls, reads E fetch fd d K K' urls p /\
    forall n, policy_depth p <= n -> o_policy_eval O (ls_heap s') n c v = policy_eval EE ctx p.
Proof.
  intros E fetch fd limit s K F d v s' O EE c ctx HE SM FF D C A.
  destruct (C85_only E fetch fd limit s K F d v s' HE SM FF D) as (p & K' & U & R & P & _).
  exists p, K', U. split; [exact R|]. intros n Hn. eapply C75_document; eassumption.
Qed.

(** ** What is left alone *)

(** Reading a document, successfully or not, changes no object that was there before,
    registers no function, and removes or replaces nothing that the finder holds. *)
Theorem C85_kept : forall E fetch fd limit n s st, same_map E s -> finder_for s st ->
  let s' := snd (doc_l E fetch fd limit n s) in
  untouched (ls_heap s) (ls_heap s') /\ same_map E s' /\ holds_more s s'.
Proof. exact doc_later. Qed.

(** Hence what an object stood for, it stands for. *)
Theorem C85_others : forall E fetch fd limit n s st v p, same_map E s -> finder_for s st ->
  for_policy (ls_heap s) v p -> for_policy (ls_heap (snd (doc_l E fetch fd limit n s))) v p.
Proof.
  intros E fetch fd limit n s st v p SM FF P. destruct (doc_later E fetch fd limit n s st SM FF) as (U & _).
  eapply policy_mono; [|exact P]. intros a o N _. exact (U _ _ N).
Qed.

(** The object is new, and it is the one that the finder holds under its name. *)
Theorem C85_registered : forall E fetch fd limit n s v s' p, grown (re_cm E) s -> same_map E s ->
  doc_l E fetch fd limit n s = (Ok v, s') -> for_policy (ls_heap s') v p ->
  (exists a, v = PRef a /\ length (ls_heap s) <= a) /\
  match p with
  | PPolicy m _ _ _ => In (pm_id m, v) (ls_policies s')
  | PPolicySet m _ _ _ => In (pm_id m, v) (ls_sets s')
  end.
Proof.
  intros E fetch fd limit n s v s' p G SM D P.
  destruct (doc_named E fetch fd limit n s v s' SM D) as (N & New). split; [exact New|].
  assert (G' : grown (re_cm E) s').
  { pose proof (grown_read (re_cm E) s E fetch fd limit n G eq_refl) as X. rewrite D in X. exact X. }
  apply grown_well_formed in G'. destruct N as (a & w & Ev & N).
  destruct P as [v a' m t alg rules I A1|v a' m t alg l ty items children I A1];
    destruct I as (Q & (attrs & N0)); rewrite Q in Ev; injection Ev as ->; destruct A1 as (w' & G1 & M1); apply key_of_maybe in M1;
    destruct N as [(Gw & O)|(Gw & O)].
  - rewrite G1 in Gw. injection Gw as <-. rewrite M1 in O. apply object_for_In; exact O.
  - exfalso. destruct (G' _ _ N0) as [_ B]. unfold get_attr in Gw. rewrite N0 in Gw.
    destruct (dict_get "policySetId" attrs) as [z|] eqn:Dz; [|discriminate]. destruct (B _ _ Dz) as [d I].
    cbn in I. repeat (destruct I as [I|I]; [discriminate I|]). exact I.
  - exfalso. destruct (G' _ _ N0) as [_ B]. unfold get_attr in Gw. rewrite N0 in Gw.
    destruct (dict_get "policyId" attrs) as [z|] eqn:Dz; [|discriminate]. destruct (B _ _ Dz) as [d I].
    cbn in I. repeat (destruct I as [I|I]; [discriminate I|]). exact I.
  - rewrite G1 in Gw. injection Gw as <-. rewrite M1 in O. apply object_for_In; exact O.
Qed.

(** With a new finder nothing of the policy is shared: what the objects made before are,
    or become, does not matter to it. *)
Theorem C85_fresh : forall E fetch fd limit n s v s' p h, same_map E s ->
  ls_policies s = [] -> ls_sets s = [] ->
  doc_l E fetch fd limit n s = (Ok v, s') -> for_policy (ls_heap s') v p ->
  (forall a o, length (ls_heap s) <= a -> nth_error (ls_heap s') a = Some o -> nth_error h a = Some o) ->
  for_policy h v p.
Proof.
  intros E fetch fd limit n s v s' p h SM P0 S0 D P H.
  pose proof (doc_fresh E fetch fd limit n s _ v s' p SM P0 S0 eq_refl D P) as FP.
  eapply policy_mono; [|exact FP]. intros a o N ND.
  unfold fresh, hide in N. rewrite hide_from_nth in N. destruct (nth_error (ls_heap s') a) as [o'|] eqn:N'; [|discriminate].
  cbn [option_map Nat.add] in N. destruct (Nat.ltb_spec a (length (ls_heap s))) as [L|L]; injection N as <-; [destruct (ND eq_refl)|].
  apply H; assumption.
Qed.

(** ** What is shared *)

(** The members of the policy sets that a finder holds are objects that the finder holds
    too, and all of them with the same name, in whatever sets, are one object.  So it is
    after reading if it was so before, with a new finder in particular. *)
Theorem C85_members : forall E fetch fd limit s K F d v s', default_readers E -> same_map E s ->
  grown (re_cm E) s -> finder_for s (mkFstate (holding K) F) -> members_held s ->
  doc_l E fetch fd limit d s = (Ok v, s') ->
  members_held s' /\
  forall v1 v2 p1 p2, held s' v1 -> held s' v2 -> for_policy (ls_heap s') v1 p1 -> for_policy (ls_heap s') v2 p2 ->
    name_of p1 = name_of p2 -> v1 = v2.
Proof.
  intros E fetch fd limit s K F d v s' HE SM G FF MH D. split; [eapply doc_members; eassumption|].
  destruct (C85_only E fetch fd limit s K F d v s' HE SM FF D) as (p & K' & U & _ & _ & FF').
  pose proof (grown_fit _ _ (grown_read (re_cm E) s E fetch fd limit d G eq_refl)) as Fit. rewrite D in Fit.
  destruct Fit as (_ & N1 & N2). intros v1 v2 p1 p2 H1 H2 P1 P2 Q. eapply one_object; eassumption.
Qed.

(** ** Reachable states *)

(** The states of programs that build objects, read documents, register functions and
    make finders: every attribute of every object is documented and of its documented
    type, whatever was read, even if reading failed. *)
Theorem C85_typed : forall cm s a c attrs name v, grown cm s ->
  nth_error (ls_heap s) a = Some (PInst c attrs) -> get_attr (ls_heap s) a name = Ok v ->
  exists d, In (name, d) (documented_attributes c) /\ as_documented (ls_heap s) d v.
Proof.
  intros cm s a c attrs name v W N G. apply grown_well_formed in W.
  destruct (W _ _ N) as [A B]. unfold get_attr in G. rewrite N in G.
  destruct (dict_get name attrs) as [w|] eqn:D; [|discriminate G]. injection G as ->.
  destruct (B _ _ D) as [d I]. exists d; split; [exact I|]. specialize (A _ _ I). rewrite D in A. exact A.
Qed.
Theorem C85_present : forall cm s a c attrs name d, grown cm s ->
  nth_error (ls_heap s) a = Some (PInst c attrs) -> In (name, d) (documented_attributes c) ->
  (c, name) <> (KRule, "description") -> exists v, get_attr (ls_heap s) a name = Ok v.
Proof.
  intros cm s a c attrs name d W N I D. apply grown_well_formed in W.
  destruct (attr_exists (ls_heap s) W a c attrs name d N I) as (v & G & _); [|eauto].
  intros t ->. apply D. destruct c as [k| | | |k|k| | | | | | | | | | | | |]; cbn in I;
    repeat (destruct I as [I|I]; [try discriminate I; injection I as <- <-; reflexivity|]); contradiction.
Qed.
Theorem C85_items : forall cm s a t items v, grown cm s ->
  nth_error (ls_heap s) a = Some (PTypedList t items) -> In v items -> has_type (ls_heap s) v t.
Proof.
  intros cm s a t items v W N I. apply grown_well_formed in W. pose proof (W _ _ N) as F. cbn in F.
  rewrite Forall_forall in F. apply F; exact I.
Qed.
(** A finder never holds two objects under one name. *)
Theorem C85_names : forall cm s, grown cm s ->
  NoDup (map fst (ls_policies s)) /\ NoDup (map fst (ls_sets s)).
Proof. intros cm s G. apply grown_fit in G. apply G. Qed.
(** In each of these states documents can be read in the environment of that state. *)
Theorem C85_environment : forall E s, grown (re_cm E) s ->
  same_map (mkRenv (re_cm E) (re_readers E) (os_map (ls_os s))) s.
Proof.
  intros E s G. apply grown_fit in G. destruct G as ((_ & ops & M) & _).
  exists ops, ops. cbn [re_fmap re_cm]. auto.
Qed.

(** ** Examples *)

Lemma std_same : forall s, os_map (ls_os s) = fm_new -> same_map std_renv s.
Proof. intros s M. exists [], []. rewrite M. auto. Qed.
Example C85_members_start : members_held lstart.
Proof. intros k v []. Qed.
Lemma start_finder : finder_for lstart (mkFstate (holding []) []).
Proof. repeat split; constructor. Qed.

(** The document of C45: a policy set with a policy, two references to documents on the
    web and a nested set that refers to the policy.  It is read into 4 policies and sets
    that stand for what the document means. *)
Definition main_read : res pval * lstate := Eval vm_compute in doc_l std_renv web (UrlFinder None) 5 d_main lstart.
Lemma main_read_eq : doc_l std_renv web (UrlFinder None) 5 d_main lstart = main_read.
Proof. vm_compute. reflexivity. Qed.
Example C85_read_main : exists p K' urls v s',
  reads std_renv web (UrlFinder None) d_main [] K' urls p /\
  doc_l std_renv web (UrlFinder None) 5 d_main lstart = (Ok v, s') /\
  for_policy (ls_heap s') v p /\ finder_for s' (mkFstate (holding K') ([] ++ urls)) /\
  map fst (ls_policies s') = [Some "p1"; Some "http://x/p"] /\
  map fst (ls_sets s') = [Some "http://x/s"; Some "inner"; Some "main"] /\
  ls_fetched s' = ["http://x/s"; "http://x/p"] /\ 40 < length (ls_heap s').
Proof.
  destruct (C85_only std_renv web (UrlFinder None) 5 lstart [] [] d_main (PRef 0) (snd main_read)
              C43_std_readers (std_same lstart eq_refl) start_finder) as (p & K' & U & R & P & FF).
  { rewrite main_read_eq. reflexivity. }
  exists p, K', U, (PRef 0), (snd main_read). split; [exact R|]. split; [rewrite main_read_eq; reflexivity|].
  split; [exact P|]. split; [exact FF|]. split; [reflexivity|]. split; [reflexivity|]. split; [reflexivity|]. cbn. lia.
Qed.
(** The references share the object: "http://x/p" is a member of the set itself and of
    "http://x/s", and "p1" of the set itself and of "inner"; each is one object. *)
Example C85_shared : exists s' main inner fetched l1 l2 l3 t p1 px,
  doc_l std_renv web (UrlFinder None) 5 d_main lstart = (Ok (PRef main), s') /\
  get_attr (ls_heap s') main "policies" = Ok (PRef l1) /\
  nth_error (ls_heap s') l1 = Some (PTypedList t [p1; PRef fetched; px; PRef inner]) /\
  get_attr (ls_heap s') fetched "policies" = Ok (PRef l2) /\
  nth_error (ls_heap s') l2 = Some (PTypedList t [px]) /\
  get_attr (ls_heap s') inner "policies" = Ok (PRef l3) /\
  nth_error (ls_heap s') l3 = Some (PTypedList t [p1]).
Proof.
  rewrite main_read_eq. exists (snd main_read). do 9 eexists.
  repeat match goal with |- _ /\ _ => split | |- _ = _ => reflexivity end.
Qed.
(** A second document, read with the same finder after the first: the set is new, its
    member is the object made before. *)
Example C85_later : exists s' a l t px,
  doc_l std_renv web LocalFinder 5 (d_set "second" [d_pref "http://x/p"]) (snd main_read) = (Ok (PRef a), s') /\
  In (Some "http://x/p", px) (ls_policies (snd main_read)) /\
  length (ls_heap (snd main_read)) <= a /\
  get_attr (ls_heap s') a "policies" = Ok (PRef l) /\
  nth_error (ls_heap s') l = Some (PTypedList t [px]).
Proof.
  do 5 eexists. split; [vm_compute; reflexivity|]. split; [right; left; reflexivity|].
  split; [cbn; lia|]. split; reflexivity.
Qed.
(** A document that cannot be read leaves the objects made on the way, and what the
    finder was given: a set with a second policy without id. *)
Example C85_failed : exists e s',
  doc_l std_renv web LocalFinder 5 (d_set "bad" [d_policy "q" [d_rule "a"]; xe "Policy" [] None []]) lstart = (Raise e, s') /\
  map fst (ls_policies s') = [Some "q"] /\ ls_sets s' = [] /\ 20 < length (ls_heap s') /\ grown STD_CLASS_MAP s'.
Proof.
  do 2 eexists. split; [vm_compute; reflexivity|]. split; [reflexivity|]. split; [reflexivity|].
  split; [cbn; lia|].
  match goal with |- grown _ ?s => change s with (snd (Raise (A := pval) EXMLParseError, s)) end.
  pose proof (grown_read STD_CLASS_MAP lstart std_renv web LocalFinder 5
    (d_set "bad" [d_policy "q" [d_rule "a"]; xe "Policy" [] None []]) (grown_start _) eq_refl) as G.
  vm_compute in G. exact G.
Qed.
(** The state after reading the first document is one of the reachable states. *)
Example C85_grown : grown STD_CLASS_MAP (snd main_read).
Proof.
  rewrite <- main_read_eq. apply (grown_read STD_CLASS_MAP lstart std_renv); [apply grown_start | reflexivity].
Qed.

Print Assumptions C85_load.
Print Assumptions C85_reads.
Print Assumptions C85_only.
Print Assumptions C85_round_trip.
Print Assumptions C85_evaluates.
Print Assumptions C85_kept.
Print Assumptions C85_others.
Print Assumptions C85_registered.
Print Assumptions C85_fresh.
Print Assumptions C85_members.
Print Assumptions C85_typed.
Print Assumptions C85_present.
Print Assumptions C85_items.
Print Assumptions C85_names.
Print Assumptions C85_environment.
