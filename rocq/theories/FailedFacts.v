(** What reading leaves in the finder, also if it fails. *)
From Verif Require Import Sources SpecReadObjects ObjectsFacts ObjectsFacts2 ObjectsFacts3 FuncMapFacts StateFacts
  ReadFacts ReadObjectsFacts ReadObjectsFacts2 ReadObjectsFacts3 ReadObjectsFacts4 SourcesFacts.
From Coq Require Import Lia.

Section Left.
Variable E : renv.
Variable Linked : Prop.
Notation regs := (regs Linked).
Notation loads := (loads E Linked).

Definition leaves {A X} (m : lm A) (q : SM X) : Prop :=
  forall U st s, good E s -> bounded U s -> regs U s st -> regs U (snd (m s)) (snd (q st)).
Lemma leaves_of : forall m r (q : SM policybase), loads m r -> agree q r ->
  (forall U st s e, good E s -> bounded U s -> regs U s st -> r st = Raise e -> fst (m s) = Raise e -> regs U (snd (m s)) (snd (q st))) ->
  leaves m q.
Proof.
  intros m r q L A H U st s G B R. destruct (L U st s G B R) as (_ & O). specialize (A st).
  destruct (r st) as [[p st']|e] eqn:Er.
  - destruct O as (v & _ & _ & _ & R'). rewrite A. exact R'.
  - exact (H U st s e G B R Er O).
Qed.

Lemma add_policy_raise : forall v s e, fst (add_policy_l v s) = Raise e -> snd (add_policy_l v s) = s.
Proof.
  intros [| a | | | | |] s e H; try reflexivity. unfold add_policy_l, bind_l, get_l in *.
  destruct (get_attr (ls_heap s) a "policyId") as [w|e']; [|reflexivity].
  destruct (object_for (key_of w) (ls_policies s)); [reflexivity|discriminate H].
Qed.
Lemma add_set_raise : forall v s e, fst (add_policy_set_l v s) = Raise e -> snd (add_policy_set_l v s) = s.
Proof.
  intros [| a | | | | |] s e H; try reflexivity. unfold add_policy_set_l, bind_l, get_l in *.
  destruct (get_attr (ls_heap s) a "policySetId") as [w|e']; [|reflexivity].
  destruct (object_for (key_of w) (ls_sets s)); [reflexivity|discriminate H].
Qed.
Lemma register_raise : forall add p st e, fst (register_s add p st) = Raise e -> snd (register_s add p st) = st.
Proof. intros add p st e H. unfold register_s in *. destruct (add (fs_reg st) p); [discriminate|reflexivity]. Qed.

Lemma policy_left : forall n, leaves (policy_reg_l E n) (read_policy_s E n).
Proof.
  intros n. eapply leaves_of; [apply policy_reg_ok|apply agree_policy|].
  intros U st s e G B R Er O. destruct (policy_ok E n s G) as (F & _).
  unfold policy_reg_l, bind_l in *. destruct (policy_l E n s) as [[v|e1] s1]; cbn [fst snd] in *.
  - assert (S1 : snd (read_policy_s E n st) = st).
    { unfold read_policy_reg in Er. unfold read_policy_s, sbind, slift, register_s.
      destruct (read_policy E n) as [p|e2]; [|reflexivity]. cbn [bind] in Er.
      destruct (add_policy (fs_reg st) p); [discriminate|reflexivity]. }
    rewrite S1. pose proof (add_policy_raise v s1) as A. destruct (add_policy_l v s1) as [[x|e2] s2]; [discriminate O|].
    cbn [fst snd] in *. rewrite (A e2 eq_refl). eapply regs_from; eassumption.
  - assert (S1 : snd (read_policy_s E n st) = st).
    { unfold read_policy_reg in Er. unfold read_policy_s, sbind, slift, register_s.
      destruct (read_policy E n) as [p|e2]; [|reflexivity]. cbn [bind] in Er.
      destruct (add_policy (fs_reg st) p); [discriminate|reflexivity]. }
    rewrite S1. eapply regs_from; eassumption.
Qed.

Definition both (V : nat -> bool) (I : sacc -> fstate -> lstate -> Prop) (x : res unit * lstate) (y : res sacc * fstate) : Prop :=
  regs V (snd x) (snd y) /\
  match fst y with
  | Ok p' => fst x = Ok tt /\ I p' (snd y) (snd x)
  | Raise e => fst x = Raise e
  end.
Lemma both_bind : forall V I (m : lm unit) (q : SM sacc) (k : unit -> lm unit) f s st,
  both V I (m s) (q st) -> (forall p' st' s', I p' st' s' -> both V I (k tt s') (f p' st')) ->
  both V I (bind_l m k s) (sbind q f st).
Proof.
  intros V I m q k f s st (R & H) C. unfold bind_l, sbind. destruct (m s) as [rm sm], (q st) as [[p'|e'] sq]; cbn [fst snd] in *.
  - destruct H as (-> & H). apply C. exact H.
  - subst rm. split; [exact R|reflexivity].
Qed.

Variable fetch : string -> res node.
Variable fd : finder.
Section Nested.
Variable nested_l : node -> lm pval.
Variable nested : node -> fstate -> res (policybase * fstate).
Variable nested_s : node -> SM policybase.
Hypothesis NestedL : forall n, loads (nested_l n) (nested n).
Hypothesis NestedA : forall n, agree (nested_s n) (nested n).
Hypothesis NestedS : forall n, leaves (nested_l n) (nested_s n).

Lemma from_reference_left : forall base ref, leaves (from_reference_l fetch nested_l base ref) (find_from_reference_s fetch nested_s base ref).
Proof.
  intros base [r|] U st s G B R; cbn [from_reference_l find_from_reference_s]; [|exact R].
  unfold bind_l, lift_l, sbind, slift. destruct (make_url base r) as [url|e]; [|exact R].
  set (s1 := mkLState (ls_os s) (ls_policies s) (ls_sets s) (ls_fetched s ++ [url])).
  set (st1 := mkFstate (fs_reg st) (fs_fetched st ++ [url])).
  assert (R1 : regs U s1 st1).
  { destruct R as (A & A' & A'' & A3). split; [exact A|]. split; [exact A'|]. cbn. rewrite A''. split; [reflexivity|exact A3]. }
  destruct (fetch url) as [d|e]; [|exact R1].
  specialize (NestedS d U st1 s1 G B R1). destruct (nested_l d s1) as [[v|e1] s2], (nested_s d st1) as [[p|e2] st2]; exact NestedS.
Qed.

Lemma find_left : forall which map_of ref,
  (forall U s st, regs U s st -> Forall2 (holds_for (hide U (ls_heap s))) (which s) (map_of (fs_reg st))) ->
  leaves (find_l fetch fd nested_l which ref) (find_s fetch fd nested_s map_of ref).
Proof.
  intros which map_of ref W U st s G B R. unfold find_l, find_s. destruct fd as [|base].
  - unfold bind_l, ret_l. cbn. destruct (object_for ref (which s)); exact R.
  - unfold bind_l, sbind. pose proof (object_for_holds _ ref _ _ (W _ _ _ R)) as O.
    destruct (key_get ref (map_of (fs_reg st))) as [p|] eqn:Ek.
    + destruct O as (v & Ov & _). rewrite Ov. destruct (object_for ref (which s)); cbn [snd]; exact R.
    + rewrite O. pose proof (from_reference_ok E Linked fetch nested_l nested NestedL base ref U st s G B R) as (_ & Ou).
      pose proof (agree_from_reference fetch nested_s nested NestedA base ref st) as Ag. cbv beta in Ag.
      pose proof (from_reference_left base ref U st s G B R) as L.
      destruct (from_reference_l fetch nested_l base ref s) as [rl sl], (find_from_reference_s fetch nested_s base ref st) as [rs ss].
      cbn [fst snd] in *. destruct (find_from_reference fetch nested base ref st) as [st1|e]; cbn [bind] in Ag.
      * destruct Ou as (v & -> & _). injection Ag as -> ->. destruct (object_for ref (which sl)); exact L.
      * subst rl rs. exact L.
Qed.

Section OneSet.
Variables (U : nat -> bool) (s0 : lstate) (id ver algId : string) (alg : comb_alg).
Hypothesis B0 : bounded U s0.
Let a := length (ls_heap s0).
Notation so_far := (set_so_far E Linked U s0 a id ver algId alg).

Lemma item_left : forall m r q p st s, loads m r -> agree q r -> leaves m q -> so_far p st s ->
  regs (under U a) (snd ((let> v := m in append_l E a "policies" v) s)) (snd ((let! x := q in slift (Ok (sacc_add p x))) st)).
Proof.
  intros m r q p st s M A L I. pose proof (set_item E Linked U s0 id ver algId alg B0 m r p st s M I) as (_ & O).
  pose proof I as (La & Ls & Rg & _).
  assert (B1 : bounded (under U a) s) by (apply (under_bounded E U s0 B0); assumption).
  assert (G1 : good E s) by apply La.
  pose proof (L _ _ _ G1 B1 Rg) as Lf. specialize (A st). pose proof (M _ _ _ G1 B1 Rg) as (_ & Mo).
  unfold bind_l, sbind, slift in *. destruct (r st) as [[x st']|e].
  - cbn [bind] in O. destruct O as (v & Ev & O). rewrite A. cbn [snd]. apply O.
  - destruct (m s) as [rm sm], (q st) as [rq sq]. cbn [fst snd] in *. subst rm rq. exact Lf.
Qed.

Lemma target_left : forall n st s, good E s -> regs (under U a) s st ->
  (exists e, read_target E n = Raise e) ->
  regs (under U a) (snd ((let> v := target_l E n in set_l E a "target" v) s)) st.
Proof.
  intros n st s G R (e & Er). pose proof (target_ok E n s G) as (F & O). rewrite Er in O.
  unfold bind_l. destruct (target_l E n s) as [r1 s1]. cbn [fst snd] in *. subst r1. eapply regs_from; eassumption.
Qed.
Lemma defaults_left : forall n p st s, so_far p st s ->
  regs (under U a) (snd ((let> v := defaults_l E n in set_l E a "policyDefaults" v) s)) st.
Proof.
  intros n p st s I. pose proof I as (L & Ls & Rg & _).
  pose proof (defaults_ok E n s (proj1 (proj2 L))) as (F & _).
  assert (Rg' : regs (under U a) (snd (defaults_l E n s)) st) by (eapply regs_from; eassumption).
  destruct (set_later E Linked U s0 id ver algId alg _ _ _ _ _ I (from_later E _ _ F) Rg') as (_ & _ & _ & attrs & items & N & _).
  unfold bind_l. destruct (defaults_l E n s) as [[v|e] s']; cbn [fst snd] in *; [|exact Rg'].
  unfold set_l, do_l. cbn [ostep]. change (os_heap (ls_os s')) with (ls_heap s'). fold a in N. rewrite N. cbn [setter_type String.eqb Ascii.eqb Bool.eqb].
  destruct s' as [[h mm] ? ? ?]. exact Rg'.
Qed.
End OneSet.

Lemma set_left : forall n, leaves (set_reader_l E fetch fd nested_l n) (read_set_s E fetch fd nested_s n).
Proof.
  induction n as [t|tag attrs tx kids IH] using node_ind'; intros U st s G B Rg; cbn [set_reader_l read_set_s].
  all: destruct (make_step E KPolicySet s s (from_refl E s G)) as (s1 & E1 & F1 & H1);
    unfold bind_l at 1; rewrite E1; clear E1; pose proof (regs_from E Linked _ _ _ _ Rg F1) as R1.
  { exact R1. }
  rewrite Forall_forall in IH. set (a := length (ls_heap s)) in *.
  pose proof (new_nth (ls_heap s) (PInst KPolicySet (new_inst (ls_heap s) KPolicySet)) (new_lists (ls_heap s) KPolicySet)) as N1. rewrite <- H1 in N1. fold a in N1.
  destruct (String.eqb (get_local_part tag) "PolicySet"); cbn [negb]; [|exact R1].
  set (n := Elem tag attrs tx kids) in *.
  unfold bind_l at 1, lift_l at 1, sbind at 1, slift at 1. destruct (required n "PolicySetId") as [id|e]; [|exact R1].
  unfold bind_l at 1, lift_l at 1, sbind at 1, slift at 1. destruct (required n "PolicyCombiningAlgId") as [algId|e]; [|exact R1].
  assert (NL1 : nth_error (ls_heap s1) (S a) = Some (PTypedList TPolicyBase [])).
  { rewrite H1. exact (new_nth_at (ls_heap s) _ _ 0). }
  assert (L1 : 3 + a <= length (ls_heap s1)) by (rewrite H1, app_length; cbn; unfold a; lia).
  destruct (set_step' E s s1 a _ _ (dict_set "policySetId" (PNat (NStr id)) (new_inst (ls_heap s) KPolicySet)) "policySetId" (PNat (NStr id)) _ F1 (le_n _) N1 eq_refl)
    as (s2 & E2 & F2 & N2 & H2 & O2 & L2); [reflexivity | reflexivity |].
  unfold bind_l at 1. unfold set_str at 1. rewrite E2. rewrite policy_alg_table.
  pose proof (set_algorithm E s s2 a _ _ _ _ _ algId F2 (le_n _) N2 (or_intror (conj eq_refl (conj eq_refl (conj eq_refl eq_refl))))) as (F3 & O3).
  unfold bind_l at 1, sbind at 1, slift at 1. destruct (alg_from_table POLICY_ALG_MAP algId) as [alg|e].
  2: { destruct (set_str E a "policyCombiningAlgId" algId s2) as [r3 s3]. cbn [fst snd] in *. subst r3. exact (regs_from E Linked _ _ _ _ Rg F3). }
  destruct O3 as ([] & Ev & H3). destruct (set_str E a "policyCombiningAlgId" algId s2) as [r3 s3]. cbn [fst snd] in *. subst r3.
  set (at3 := dict_set "policyCombiningAlg" (PAlg alg) (dict_set "policyCombiningAlgId" (PNat (NStr algId))
     (dict_set "policySetId" (PNat (NStr id)) (new_inst (ls_heap s) KPolicySet)))) in *.
  assert (N3 : nth_error (ls_heap s3) a = Some (PInst KPolicySet at3)) by (rewrite H3; eapply nth_replace_same; exact N2).
  destruct (set_step' E s s3 a _ _ (dict_set "version" (PNat (NStr (version_of n))) at3) "version" (PNat (NStr (version_of n))) _ F3 (le_n _) N3 eq_refl)
    as (s4 & E4 & F4 & N4 & H4 & O4 & L4); [reflexivity | reflexivity |].
  unfold bind_l at 1. unfold set_str at 1. rewrite E4.
  assert (I4 : set_so_far E Linked U s a id (version_of n) algId alg (mkSacc None None []) st s4).
  { split; [apply from_later; exact F4|]. split; [rewrite L4, H3, replace_length, L2; exact L1|].
    split.
    { destruct F4 as (Un & P1 & P2 & P3 & _). eapply regs_later; [exact Rg| |exact P1|exact P2|exact P3].
      apply hide_hsub. intros b o HU Nb. split; [|apply Un; exact Nb].
      assert (b < a) by (unfold a; apply nth_error_Some; congruence).
      unfold under. rewrite HU. cbn [orb]. apply andb_false_iff. left. apply Nat.leb_gt. lia. }
    eexists. exists []. split; [exact N4|].
    do 4 (split; [eexists; split; [reflexivity|]; reflexivity|]).
    split; [eexists; split; [reflexivity|]; left; split; reflexivity|].
    do 3 (split; [eexists; split; [reflexivity|]; reflexivity|]).
    split; [|split; [constructor | intros i []]]. rewrite O4, H3, nth_replace_other, O2 by lia. exact NL1. }
  assert (Open : forall s' st', regs (under U a) s' st' -> regs U s' st').
  { intros s' st' R. eapply regs_later; [exact R| |reflexivity|reflexivity|reflexivity].
    apply hide_hsub. intros b o HU Nb. split; [|exact Nb]. unfold under in HU. apply orb_false_iff in HU. apply HU. }
  match goal with |- regs U (snd (bind_l (?g kids) _ _)) (snd (sbind (?h kids _) _ _)) =>
    assert (L : forall ks, (forall c, In c ks -> In c kids) -> forall p st' s',
      set_so_far E Linked U s a id (version_of n) algId alg p st' s' ->
      both (under U a) (set_so_far E Linked U s a id (version_of n) algId alg) (g ks s') (h ks p st')) end.
  { induction ks as [|k ks IHks]; intros Sub p st' s' I.
    { split; [apply I|]. split; [reflexivity|exact I]. }
    assert (Sub' : forall c, In c ks -> In c kids) by (intros c X; apply Sub; right; exact X).
    specialize (IHks Sub'). pose proof (IH k (Sub k (or_introl eq_refl))) as IHk.
    destruct k as [t ats txt sub|t]; cbn beta iota; [|apply IHks; exact I].
    set (k := Elem t ats txt sub) in *.
    apply both_bind; [|intros p' st1 s'' I'; apply IHks; exact I'].
    clear IHks. pose proof I as (LI & _ & RI & _). pose proof (proj1 (proj2 LI)) as GI.
    assert (Item : forall m r q, loads m r -> agree q r -> leaves m q ->
      both (under U a) (set_so_far E Linked U s a id (version_of n) algId alg) ((let> v := m in append_l E a "policies" v) s') ((let! x := q in slift (Ok (sacc_add p x))) st')).
    { intros m r q M A Lv. split; [eapply item_left; eassumption|].
      pose proof (set_item E Linked U s id (version_of n) algId alg B m r p st' s' M I) as (_ & O).
      specialize (A st'). unfold sbind, slift. destruct (r st') as [[x sx]|e]; cbn [bind] in O.
      - rewrite A. cbn [fst snd]. destruct O as ([] & Ev & O). split; assumption.
      - destruct (q st') as [rq sq]. cbn [fst] in A. subst rq. exact O. }
    destruct (String.eqb (get_local_part t) "Description").
    { pose proof (set_description E Linked U s id (version_of n) algId alg k p st' s' I) as (_ & [] & Ev & O). cbn [slift fst snd] in *.
      split; [apply O|]. split; [exact Ev|exact O]. }
    destruct (String.eqb (get_local_part t) "PolicySetDefaults").
    { split; [destruct (read_defaults k); exact (defaults_left U s id (version_of n) algId alg k p st' s' I)|].
      pose proof (set_defaults E Linked U s id (version_of n) algId alg k p st' s' sacc (fun _ _ _ => True) I) as (_ & O).
      destruct (read_defaults k); exact O. }
    destruct (String.eqb (get_local_part t) "Target").
    { pose proof (set_target E Linked U s id (version_of n) algId alg B k p st' s' I) as (_ & O).
      pose proof (target_left U s k st' s' GI RI) as Lt. unfold slift. cbn [fst snd].
      destruct (read_target E k) as [tt'|e]; cbn [bind] in *.
      - destruct O as ([] & Ev & O). split; [apply O|]. split; [exact Ev|exact O].
      - split; [apply Lt; eauto|exact O]. }
    destruct (String.eqb (get_local_part t) "CombinerParameters"); [split; [exact RI|reflexivity]|].
    destruct (String.eqb (get_local_part t) "PolicyCombinerParameters"); [split; [exact RI|reflexivity]|].
    destruct (String.eqb (get_local_part t) "PolicySetCombinerParameters"); [split; [exact RI|reflexivity]|].
    destruct (String.eqb (get_local_part t) "VariableDefinition"); [split; [exact RI|reflexivity]|].
    destruct (String.eqb (get_local_part t) "Policy"); [eapply Item; [apply policy_reg_ok|apply agree_policy|apply policy_left]|].
    destruct (String.eqb (get_local_part t) "PolicyIdReference").
    { eapply Item; [apply find_policy_ok; exact NestedL|apply agree_find; exact NestedA|].
      apply find_left. intros V x y (Y & _). exact Y. }
    destruct (String.eqb (get_local_part t) "PolicySet").
    { eapply Item; [apply set_ok; exact NestedL|apply agree_set; exact NestedA|exact IHk]. }
    destruct (String.eqb (get_local_part t) "PolicySetIdReference").
    { eapply Item; [apply find_set_ok; exact NestedL|apply agree_find_set; exact NestedA|].
      apply find_left. intros V x y (_ & Y & _). exact Y. }
    destruct (String.eqb (get_local_part t) "Obligations"); (split; [exact RI|reflexivity]). }
  specialize (L kids (fun c X => X) _ _ _ I4). unfold both in L.
  unfold bind_l at 1, sbind at 1.
  match type of L with regs _ (snd ?x) (snd ?y) /\ _ => destruct x as [rm s5], y as [[p'|e'] st5] end; cbn [fst snd] in L.
  2: { destruct L as (R' & ->). cbn [snd]. apply Open. exact R'. }
  destruct L as (R5 & -> & I5).
  pose proof (set_done E Linked U s id (version_of n) algId alg B p' st5 s5 I5) as (_ & O). cbv zeta in O.
  unfold sbind, register_s, slift.
  match goal with |- context [add_policy_set ?g ?p] => destruct (add_policy_set g p) as [g'|e] end; cbn [bind] in O.
  - destruct O as (v & Ev & _ & _ & R6). exact R6.
  - pose proof (add_set_raise (PRef a) s5) as Ad. fold a in O. unfold bind_l in *.
    destruct (add_policy_set_l (PRef a) s5) as [[x|e2] s6]; cbn [fst snd] in *; [discriminate O|].
    rewrite (Ad e2 eq_refl). apply Open. exact R5.
Qed.
End Nested.

Lemma doc_left : forall limit n, leaves (doc_l E fetch fd limit n) (read_doc_s limit E fetch fd n).
Proof.
  induction limit as [|limit IH]; intros n U st s G B Rg; cbn [doc_l read_doc_s]; [exact Rg|].
  unfold bind_l at 1, lift_l at 1, sbind at 1, slift at 1. destruct (local_name n) as [l|e]; [|exact Rg].
  destruct (String.eqb l "Policy"); [apply policy_left; assumption|].
  destruct (String.eqb l "PolicySet"); [|exact Rg].
  apply (set_left _ (fun m => read_doc limit E fetch fd m)); [apply doc_ok|apply agree_doc|exact IH|exact G|exact B|exact Rg].
Qed.
End Left.
