(** The finders and the reader of policy sets. *)
From Verif Require Import SpecReadObjects ObjectsFacts ObjectsFacts2 ObjectsFacts3 FuncMapFacts StateFacts
  ReadFacts ReadObjectsFacts ReadObjectsFacts2 ReadObjectsFacts3.
From Coq Require Import Lia.

Section Sets.
Variable E : renv.
Notation cm := (re_cm E).
(** whether the finder lists only what it holds *)
Variable Linked : Prop.


(** Only new objects were changed. *)
Definition later (s0 s : lstate) : Prop := untouched (ls_heap s0) (ls_heap s) /\ good E s /\ holds_more s0 s.
Lemma more_refl : forall s, holds_more s s.
Proof. intros s. split; [|split]; exists []; rewrite app_nil_r; reflexivity. Qed.
Lemma more_trans : forall a b c, holds_more a b -> holds_more b c -> holds_more a c.
Proof.
  intros a b c ((x1 & X1) & (x2 & X2) & (x3 & X3)) ((y1 & Y1) & (y2 & Y2) & (y3 & Y3)).
  split; [|split]; [exists (x1 ++ y1)%list; rewrite Y1, X1 | exists (x2 ++ y2)%list; rewrite Y2, X2 | exists (x3 ++ y3)%list; rewrite Y3, X3];
    rewrite app_assoc; reflexivity.
Qed.
Lemma more_eq : forall a b, ls_policies b = ls_policies a -> ls_sets b = ls_sets a -> ls_fetched b = ls_fetched a -> holds_more a b.
Proof. intros a b H1 H2 H3. split; [|split]; exists []; rewrite app_nil_r; assumption. Qed.
Lemma later_refl : forall s, good E s -> later s s.
Proof. intros s G. split; [apply untouched_refl|]. split; [exact G | apply more_refl]. Qed.
Lemma later_trans : forall a b c, later a b -> later b c -> later a c.
Proof.
  intros a b c (U1 & _ & M1) (U2 & G & M2). split; [eapply untouched_trans; eassumption|].
  split; [exact G | eapply more_trans; eassumption].
Qed.
Lemma from_later : forall s0 s, from E s0 s -> later s0 s.
Proof. intros s0 s (U & P1 & P2 & P3 & G). split; [exact U|]. split; [exact G | apply more_eq; assumption]. Qed.
Lemma later_length : forall a b, later a b -> length (ls_heap a) <= length (ls_heap b).
Proof. intros a b (U & _). apply untouched_length; exact U. Qed.
Lemma later_more : forall s0 s s', later s0 s -> ls_os s' = ls_os s -> holds_more s s' -> later s0 s'.
Proof.
  intros s0 s s' (U & G & M) O M'. unfold later, good, same_map, ls_heap in *. rewrite O.
  split; [exact U|]. split; [exact G | eapply more_trans; eassumption].
Qed.

Lemma held_more : forall s s' v, holds_more s s' -> held s v -> held s' v.
Proof.
  intros s s' v ((x1 & X1) & (x2 & X2) & _) (k & [H|H]); exists k; [left; rewrite X1 | right; rewrite X2];
    apply in_or_app; left; exact H.
Qed.
Lemma get_sub : forall h h' a name v, hsub h h' -> get_attr h a name = Ok (PRef v) -> get_attr h' a name = Ok (PRef v).
Proof.
  intros h h' a name v HS G. unfold get_attr in *. destruct (nth_error h a) as [o|] eqn:N; [|discriminate].
  rewrite (HS _ _ N); [exact G|]. intros ->. cbn in G. destruct (String.eqb name "value"); discriminate G.
Qed.
Lemma lists_mono : forall s s' h h' v, holds_more s s' -> hsub h h' -> lists_held s h v -> lists_held s' h' v.
Proof.
  intros s s' h h' v HM HS (a & l & t & items & Q & G & N & F). exists a, l, t, items. split; [exact Q|].
  split; [eapply get_sub; eassumption|].
  split; [apply HS; [exact N | discriminate]|]. intros i I. eapply held_more; [exact HM | apply F; exact I].
Qed.

Definition rebase (s0 s : lstate) : lstate := mkLState (ls_os s0) (ls_policies s) (ls_sets s) (ls_fetched s).
Lemma rebased : forall s0 s, later s0 s -> from E (rebase s0 s) s.
Proof. intros s0 s (U & G & _). split; [exact U|]. cbn. auto. Qed.
Lemma rebase_later : forall s0 s s', later s0 s -> from E (rebase s0 s) s' -> later s0 s'.
Proof.
  intros s0 s s' (_ & _ & M) (U & P1 & P2 & P3 & G). split; [exact U|]. split; [exact G|].
  eapply more_trans; [exact M | apply more_eq; assumption].
Qed.

(** What the finder holds stands for the policies, without the objects in [U]. *)
Definition regs (U : nat -> bool) (s : lstate) (st : fstate) : Prop :=
  Forall2 (holds_for (hide U (ls_heap s))) (ls_policies s) (rg_policies (fs_reg st)) /\
  Forall2 (holds_for (hide U (ls_heap s))) (ls_sets s) (rg_sets (fs_reg st)) /\
  ls_fetched s = fs_fetched st /\
  (Linked -> forall k v, In (k, v) (ls_sets s) -> lists_held s (hide U (ls_heap s)) v).
Definition bounded (U : nat -> bool) (s : lstate) : Prop := forall x, U x = true -> x < length (ls_heap s).

Lemma holds_mono : forall h h' x y, hsub h h' -> holds_for h x y -> holds_for h' x y.
Proof. intros h h' x y HS (K & P). split; [exact K | eapply policy_mono; eassumption]. Qed.
Lemma Forall2_holds : forall h h' xs ys, hsub h h' -> Forall2 (holds_for h) xs ys -> Forall2 (holds_for h') xs ys.
Proof. intros h h' xs ys HS F. induction F; constructor; [eapply holds_mono; eassumption | assumption]. Qed.
Lemma regs_later : forall U U' s s' st, regs U s st -> hsub (hide U (ls_heap s)) (hide U' (ls_heap s')) ->
  ls_policies s' = ls_policies s -> ls_sets s' = ls_sets s -> ls_fetched s' = ls_fetched s -> regs U' s' st.
Proof.
  intros U U' s s' st (A & B & C & D) HS P1 P2 P3. pose proof (more_eq _ _ P1 P2 P3) as HM. unfold regs. rewrite P1, P2, P3.
  split; [eapply Forall2_holds; eassumption|]. split; [eapply Forall2_holds; eassumption|]. split; [exact C|].
  intros m k v I. eapply lists_mono; [exact HM | exact HS | exact (D m k v I)].
Qed.
Lemma hide_untouched : forall U h h', untouched h h' -> hsub (hide U h) (hide U h').
Proof. intros U h h' Un. apply hide_hsub. intros a o HU N. split; [exact HU | apply Un; exact N]. Qed.
Lemma regs_from : forall U s s' st, regs U s st -> from E s s' -> regs U s' st.
Proof.
  intros U s s' st R (Un & P1 & P2 & P3 & _). eapply regs_later; try eassumption. apply hide_untouched; exact Un.
Qed.
Lemma fresh_hide : forall U s h', bounded U s -> hsub (fresh (length (ls_heap s)) h') (hide U h').
Proof.
  intros U s h' B. apply hide_hsub. intros a o HU N. split; [|exact N]. apply Nat.ltb_ge in HU.
  destruct (U a) eqn:Ua; [|reflexivity]. apply B in Ua. lia.
Qed.
Lemma bounded_later : forall U s s', bounded U s -> later s s' -> bounded U s'.
Proof. intros U s s' B L x Ux. apply B in Ux. apply later_length in L. lia. Qed.

Lemma object_for_None : forall k d, object_for k d = None -> ~ In k (map fst d).
Proof.
  intros k d. induction d as [|[k' v] d IH]; cbn; [auto|]. intros H [Q|I].
  - subst k'. destruct k as [k|]; cbn in H; [rewrite String.eqb_refl in H|]; discriminate.
  - destruct (opt_eqb String.eqb k k'); [discriminate | exact (IH H I)].
Qed.
Lemma object_for_In : forall k d v, object_for k d = Some v -> In (k, v) d.
Proof.
  intros k d v. induction d as [|[k' w] d IH]; cbn; [discriminate|]. destruct (opt_eqb String.eqb k k') eqn:Q.
  - intros [= <-]. left. f_equal. destruct k as [k|], k' as [k'|]; cbn in Q; try discriminate; [|reflexivity].
    apply String.eqb_eq in Q. congruence.
  - intros H; right; exact (IH H).
Qed.
Lemma object_for_holds : forall h k xs ys, Forall2 (holds_for h) xs ys ->
  match key_get k ys with
  | Some p => exists v, object_for k xs = Some v /\ for_policy h v p
  | None => object_for k xs = None
  end.
Proof.
  intros h k xs ys F. induction F as [|[k1 v] [k2 p] xs ys (K & P) F IH]; cbn; [reflexivity|]. cbn in K, P. subst k2.
  destruct (opt_eqb String.eqb k k1); [eauto | exact IH].
Qed.

Lemma out_eq : forall A X (K : lstate -> Prop) (R : A -> X -> lstate -> Prop) p r, out K R p r -> out K (fun v x s => R v x s /\ r = Ok x) p r.
Proof. intros A X K R p r (HK & H). split; [exact HK|]. destruct r; [|exact H]. destruct H as (v & Ev & Rv). exists v; auto. Qed.

Lemma read_policy_shape : forall n p, read_policy E n = Ok p -> exists m t alg rules, p = PPolicy m t alg rules.
Proof.
  intros n p H. unfold read_policy in H.
  destruct (expect "Policy" n); [|discriminate]. cbn [bind] in H.
  destruct (required n "PolicyId"); [|discriminate]. cbn [bind] in H.
  destruct (required n "RuleCombiningAlgId") as [id|]; [|discriminate]. cbn [bind] in H.
  destruct (rule_alg_of id); [|discriminate]. cbn [bind] in H.
  destruct (foldM _ _ _); [|discriminate]. cbn [bind] in H. injection H as <-. eauto 6.
Qed.

Definition loads (m : lm pval) (r : fstate -> res (policybase * fstate)) : Prop :=
  forall U st s, good E s -> bounded U s -> regs U s st ->
  out (later s) (fun v x s' => for_policy (hide U (ls_heap s')) v (fst x) /\ held s' v /\ regs U s' (snd x)) (m s) (r st).

Lemma key_of_maybe : forall o v, maybe for_string o v -> key_of v = o.
Proof. intros [x|] v H; [unfold maybe, for_string in H | cbn in H]; subst v; reflexivity. Qed.

Lemma policy_reg_ok : forall n, loads (policy_reg_l E n) (read_policy_reg E n).
Proof.
  intros n U st s G B Rg. unfold policy_reg_l, read_policy_reg.
  eapply out_bind.
  { eapply out_weaken; [apply out_eq, policy_ok; exact G | intros s' F; apply from_later; exact F|].
    intros v p s' F Rv. exact (conj F Rv). }
  intros v p s' _ (F & Rv & Eq). destruct (read_policy_shape _ _ Eq) as (m & t & alg & rules & ->).
  assert (Rg' : regs U s' st) by (eapply regs_from; eassumption).
  assert (HS : hsub (fresh (length (ls_heap s)) (ls_heap s')) (hide U (ls_heap s'))) by (apply fresh_hide; exact B).
  assert (PU : for_policy (hide U (ls_heap s')) v (PPolicy m t alg rules)) by (eapply policy_mono; eassumption).
  assert (PR : for_policy (ls_heap s') v (PPolicy m t alg rules)) by (eapply policy_mono; [apply hide_hsub_all | exact PU]).
  remember (PPolicy m t alg rules) as p eqn:Ep. destruct PR as [v a m' t' alg' rules' I A1|]; [|discriminate]. injection Ep as -> -> -> ->.
  destruct I as (-> & _). destruct A1 as (w & Gw & Mw). apply key_of_maybe in Mw.
  unfold add_policy_l. unfold bind_l at 1. unfold bind_l at 1. unfold get_l. rewrite Gw. rewrite Mw.
  unfold add_policy, key_mem. pose proof Rg' as (R1 & R2 & R3 & R4).
  pose proof (object_for_holds _ (pm_id m) _ _ R1) as O. destruct (key_get (pm_id m) (rg_policies (fs_reg st))) as [q|].
  - destruct O as (u & Ou & _). rewrite Ou. cbn [bind]. apply out_raise. apply from_later; exact F.
  - rewrite O. cbn [bind]. apply out_ok; [eapply later_more; [exact (from_later _ _ F) | reflexivity|]; split; [eexists; reflexivity|]; split; exists []; rewrite app_nil_r; reflexivity|]. cbn [fst snd]. split; [exact PU|].
    split. { exists (pm_id m). left. cbn. apply in_or_app. right. left. reflexivity. }
    split; [|split; [exact R2|]; split; [exact R3|]].
    2: { intros mm k u I. eapply lists_mono; [| |exact (R4 mm k u I)]; [|intros x o Nx _; exact Nx].
         split; [eexists; reflexivity|]. split; exists []; rewrite app_nil_r; reflexivity. }
    cbn. apply Forall2_app; [exact R1|].
    constructor; [split; [reflexivity | exact PU] | constructor].
Qed.

(** *** References *)
Variable fetch : string -> res node.
Variable fd : finder.
Section Nested.
Variable nested_l : node -> lm pval.
Variable nested : node -> fstate -> res (policybase * fstate).
Hypothesis Nested : forall n, loads (nested_l n) (nested n).

Lemma from_reference_ok : forall base ref U st s, good E s -> bounded U s -> regs U s st ->
  out (later s) (fun _ st' s' => regs U s' st') (from_reference_l fetch nested_l base ref s) (find_from_reference fetch nested base ref st).
Proof.
  intros base [r|] U st s G B Rg; cbn [from_reference_l find_from_reference]; [|apply out_raise, later_refl; exact G].
  apply out_lift; [apply later_refl; exact G|]. intros url _.
  set (s1 := mkLState (ls_os s) (ls_policies s) (ls_sets s) (ls_fetched s ++ [url])).
  assert (L1 : later s s1).
  { eapply later_more; [exact (later_refl s G) | reflexivity|]. split; [|split]; [exists []; rewrite app_nil_r; reflexivity | exists []; rewrite app_nil_r; reflexivity | eexists; reflexivity]. }
  assert (R1 : regs U s1 (mkFstate (fs_reg st) (fs_fetched st ++ [url]))).
  { destruct Rg as (A & A' & A'' & A3). split; [exact A|]. split; [exact A'|]. cbn. rewrite A''. split; [reflexivity | exact A3]. }
  cbn [bind]. destruct (fetch url) as [d|e] eqn:Fe.
  - eapply out_step; [reflexivity|]. cbn [bind]. fold s1.
    eapply out_bind.
    + eapply out_weaken; [apply Nested; [exact G | exact B | exact R1] | intros s' L'; exact (later_trans _ _ _ L1 L') | intros v x s' _ H; exact H].
    + intros v [p st2] s' L' (_ & _ & R2). apply out_ok; [exact L' | exact R2].
  - unfold bind_l. cbn [bind]. apply out_raise. exact L1.
Qed.

Lemma find_ok : forall which pick find ref,
  (forall U s st, regs U s st -> Forall2 (holds_for (hide U (ls_heap s))) (which s) (pick st)) ->
  (forall s, which s = ls_policies s \/ which s = ls_sets s) ->
  (forall st, find ref st =
     let* st1 := match fd with
                 | LocalFinder => Ok st
                 | UrlFinder base => match key_get ref (pick st) with
                                     | Some _ => Ok st
                                     | None => find_from_reference fetch nested base ref st
                                     end
                 end in
     match key_get ref (pick st1) with Some p => Ok (p, st1) | None => Raise EXMLParseError end) ->
  loads (find_l fetch fd nested_l which ref) (find ref).
Proof.
  intros which pick find ref W Hw Hf U st s G B Rg. rewrite Hf. unfold find_l.
  eapply out_bind with (R := fun _ st' s' => regs U s' st').
  - destruct fd as [|base]; [apply out_ok; [apply later_refl; exact G | exact Rg]|].
    pose proof (object_for_holds _ ref _ _ (W _ _ _ Rg)) as O. destruct (key_get ref (pick st)).
    + destruct O as (v & -> & _). apply out_ok; [apply later_refl; exact G | exact Rg].
    + rewrite O. apply from_reference_ok; assumption.
  - intros _ st' s' L' R'. pose proof (object_for_holds _ ref _ _ (W _ _ _ R')) as O.
    destruct (key_get ref (pick st')) as [p|].
    + destruct O as (v & Ov & P). rewrite Ov. apply out_ok; [exact L'|]. split; [exact P|]. split; [|exact R'].
      apply object_for_In in Ov. exists ref. destruct (Hw s'); rewrite H in Ov; [left | right]; exact Ov.
    + rewrite O. apply out_raise; exact L'.
Qed.
Lemma find_policy_ok : forall ref, loads (find_l fetch fd nested_l ls_policies ref) (find_policy fetch fd nested ref).
Proof.
  intros ref. apply find_ok with (pick := fun st => rg_policies (fs_reg st)); [intros U s st (A & _); exact A | left; reflexivity|].
  intros st. unfold find_policy. destruct fd; reflexivity.
Qed.
Lemma find_set_ok : forall ref, loads (find_l fetch fd nested_l ls_sets ref) (find_policy_set fetch fd nested ref).
Proof.
  intros ref. apply find_ok with (pick := fun st => rg_sets (fs_reg st)); [intros U s st (_ & A & _); exact A | right; reflexivity|].
  intros st. unfold find_policy_set. destruct fd; reflexivity.
Qed.

(** *** Policy sets *)
Definition under (U : nat -> bool) (a x : nat) : bool := U x || (Nat.leb a x && Nat.leb x (2 + a)).

Definition set_so_far (U : nat -> bool) (s0 : lstate) (a : nat) (id ver algId : string) (alg : comb_alg)
  (p : sacc) (st : fstate) (s : lstate) : Prop :=
  let H := hide (under U a) (ls_heap s) in
  later s0 s /\ 3 + a <= length (ls_heap s) /\ regs (under U a) s st /\
  exists attrs items, nth_error (ls_heap s) a = Some (PInst KPolicySet attrs) /\
    has attrs "policySetId" (maybe for_string (Some id)) /\
    has attrs "version" (maybe for_string (Some ver)) /\
    has attrs "policyCombiningAlgId" (maybe for_string (Some algId)) /\
    has attrs "description" (maybe for_string (sc_description p)) /\
    has attrs "policySetDefaults" (for_defaults H None) /\
    has attrs "target" (maybe (for_target H) (sc_target p)) /\
    has attrs "policyCombiningAlg" (maybe for_algorithm (Some alg)) /\
    has attrs "policies" (fun v => v = PRef (S a)) /\
    nth_error (ls_heap s) (S a) = Some (PTypedList TPolicyBase items) /\
    for_policies H items (sc_policies p) /\ (forall i, In i items -> held s i).

Lemma policies_mono : forall h h' vs ps, hsub h h' -> for_policies h vs ps -> for_policies h' vs ps.
Proof. intros h h' vs ps HS F. induction F; constructor; [eapply policy_mono; eassumption | assumption]. Qed.
Lemma policies_snoc : forall h vs ps v p, for_policies h vs ps -> for_policy h v p -> for_policies h (vs ++ [v]) (ps ++ [p]).
Proof. intros h vs ps v p F P. induction F; cbn; constructor; auto. constructor. Qed.

Section OneSet.
Variables (U : nat -> bool) (s0 : lstate) (id ver algId : string) (alg : comb_alg).
Hypothesis B0 : bounded U s0.
Let a := length (ls_heap s0).
Notation so_far := (set_so_far U s0 a id ver algId alg).

Lemma under_bounded : forall s, later s0 s -> 3 + a <= length (ls_heap s) -> bounded (under U a) s.
Proof.
  intros s L La x Ux. unfold under in Ux. apply orb_true_iff in Ux. destruct Ux as [Ux|Ux].
  - exact (bounded_later _ _ _ B0 L x Ux).
  - apply andb_true_iff in Ux. destruct Ux as [_ Ux]. apply Nat.leb_le in Ux. lia.
Qed.
Lemma under_in : forall i, i <= 2 -> under U a (i + a) = true.
Proof.
  intros i L. unfold under. apply orb_true_iff. right. apply andb_true_iff. split; apply Nat.leb_le; lia.
Qed.

(** the reading of something else leaves the set as it is *)
Lemma set_later : forall p st st' s s', so_far p st s -> later s s' -> regs (under U a) s' st' -> so_far p st' s'.
Proof.
  intros p st st' s s' (L & Ls & Rg & attrs & items & N & A1 & A2 & A3 & A4 & A5 & A6 & A7 & A8 & NL & FI & HI) L' Rg'.
  pose proof (proj1 L') as Un. pose proof (later_length _ _ L') as Len.
  assert (HS : hsub (hide (under U a) (ls_heap s)) (hide (under U a) (ls_heap s'))) by (apply hide_untouched; exact Un).
  split; [eapply later_trans; eassumption|]. split; [lia|]. split; [exact Rg'|]. exists attrs, items. split; [apply Un; exact N|].
  do 4 (split; [assumption|]).
  split; [eapply has_impl; [intros v; apply defaults_mono; exact HS | exact A5]|].
  split; [eapply has_impl; [intros v; eapply maybe_local; [intros ? ?; eapply target_mono; eassumption]|exact A6]|].
  split; [exact A7|]. split; [exact A8|]. split; [apply Un; exact NL|]. split; [eapply policies_mono; eassumption|].
  intros i Ii. eapply held_more; [apply L' | apply HI; exact Ii].
Qed.

(** a child *)
Lemma set_item : forall m r p st s, loads m r -> so_far p st s ->
  out (later s0) (fun _ x s' => so_far (fst x) (snd x) s')
    ((let> v := m in append_l E a "policies" v) s) (let* (q, st') := r st in Ok (sacc_add p q, st')).
Proof.
  intros m r p st s M I. pose proof I as (L & Ls & Rg & _).
  eapply out_bind.
  { eapply out_weaken; [apply M; [apply L | apply under_bounded; assumption | exact Rg] | intros s' L'; exact (later_trans _ _ _ L L')|].
    intros v x s' L' Rv. exact (conj L' Rv). }
  intros v [q st'] s' L1 (L' & Pq & Hv & Rg'). cbn [fst snd] in Pq, Rg'.
  destruct (set_later _ _ _ _ _ I L' Rg') as (_ & Ls' & _ & attrs & items & N & A1 & A2 & A3 & A4 & A5 & A6 & A7 & A8 & NL & FI & HI).
  assert (D : dict_get "policies" attrs = Some (PRef (S a))) by (destruct A8 as (w & Dw & ->); exact Dw).
  assert (IS : isinstance (ls_heap s') v TPolicyBase = true).
  { pose proof (policy_mono _ _ (hide_hsub_all _ _) _ _ Pq) as Pr.
    destruct Pr as [v b ? ? ? ? (-> & ats & Nb)|v b ? ? ? ? ? ? ? (-> & ats & Nb)]; cbn [isinstance]; rewrite Nb; reflexivity. }
  destruct (append_step E (rebase s0 s') s' a (S a) _ _ _ _ _ v (rebased _ _ L1) (Nat.le_succ_diag_r _) N D NL IS) as (s2 & E2 & F2 & H2).
  pose proof (rebase_later _ _ _ L1 F2) as L2. rewrite E2. apply out_ok; [exact L2|]. cbn [fst snd].
  assert (HH : hide (under U a) (ls_heap s2) = hide (under U a) (ls_heap s')) by (rewrite H2; apply hide_replace, (under_in 1); lia).
  split; [exact L2|]. split; [rewrite H2, replace_length; exact Ls'|].
  split. { destruct F2 as (_ & P1 & P2 & P3 & _). eapply regs_later; [exact Rg'| |exact P1|exact P2|exact P3]. rewrite HH. apply hide_untouched, untouched_refl. }
  exists attrs, (items ++ [v]). split; [rewrite H2, nth_replace_other by lia; exact N|]. rewrite HH.
  do 8 (split; [assumption|]). split; [rewrite H2; eapply nth_replace_same; exact NL|].
  split; [apply policies_snoc; assumption|].
  assert (HM : holds_more s' s2) by (destruct F2 as (_ & P1 & P2 & P3 & _); apply more_eq; assumption).
  intros i Ii. apply in_app_or in Ii. destruct Ii as [Ii|[<-|[]]]; (eapply held_more; [exact HM|]); [apply HI; exact Ii | exact Hv].
Qed.

Lemma set_description : forall n p st s, so_far p st s ->
  out (later s0) (fun _ x s' => so_far (fst x) (snd x) s') (description_l E a n s)
    (Ok (mkSacc (description_of n (sc_description p)) (sc_target p) (sc_policies p), st)).
Proof.
  intros n p st s I. pose proof I as (L & Ls & Rg & attrs & items & N & A1 & A2 & A3 & A4 & A5 & A6 & A7 & A8 & NL & FI & HI).
  pose proof (rebased _ _ L) as F.
  eapply out_weaken with (K := from E (rebase s0 s)); [|intros s'; apply rebase_later; exact L | intros v x s' _ H; exact H].
  change (Ok (mkSacc (description_of n (sc_description p)) (sc_target p) (sc_policies p), st))
    with (let* d := Ok (description_of n (sc_description p)) in Ok (mkSacc d (sc_target p) (sc_policies p), st)).
  eapply out_map; [|intros v x s' _ H; exact H].
  apply (description_step E (rebase s0 s) s a KPolicySet attrs n (fun d s' => so_far (mkSacc d (sc_target p) (sc_policies p)) st s'));
    [exact F | exact (le_n _) | exact N | reflexivity | intros ? ? ?; reflexivity | | ].
  - split; [exact L|]. split; [exact Ls|]. split; [exact Rg|]. exists attrs, items. repeat (split; [assumption|]). exact HI.
  - intros x s' F' N' H' O' L'.
    assert (HS : hsub (hide (under U a) (ls_heap s)) (hide (under U a) (ls_heap s'))).
    { apply hide_hsub. intros b o HU Nb. split; [exact HU|]. rewrite O'; [exact Nb|]. intros ->. pose proof (under_in 0 ltac:(lia)) as X. cbn in X. congruence. }
    split; [eapply rebase_later; [exact L | exact F']|]. split; [rewrite L'; exact Ls|].
    split. { destruct F' as (_ & P1 & P2 & P3 & _). eapply regs_later; [exact Rg | exact HS | exact P1|exact P2|exact P3]. }
    eexists. exists items. split; [exact N'|]. cbn [sc_description sc_target sc_policies].
    do 3 (split; [apply has_other; [discriminate|]; assumption|]). split; [apply has_set; reflexivity|].
    split; [apply has_other; [discriminate|]; eapply has_impl; [intros v; apply defaults_mono; exact HS | exact A5]|].
    split; [apply has_other; [discriminate|]; eapply has_impl; [intros v; eapply maybe_local; [intros ? ?; eapply target_mono; eassumption]|exact A6]|].
    do 2 (split; [apply has_other; [discriminate|]; assumption|]). split; [rewrite O' by lia; exact NL|].
    split; [eapply policies_mono; eassumption|].
    destruct F' as (_ & P1 & P2 & P3 & _). intros i Ii. eapply held_more; [apply (more_eq s s'); assumption | apply HI; exact Ii].
Qed.

Lemma set_target : forall n p st s, so_far p st s ->
  out (later s0) (fun _ x s' => so_far (fst x) (snd x) s') ((let> v := target_l E n in set_l E a "target" v) s)
    (let* t := read_target E n in Ok (mkSacc (sc_description p) (Some t) (sc_policies p), st)).
Proof.
  intros n p st s I. pose proof I as (L & Ls & Rg & _). pose proof (rebased _ _ L) as F.
  eapply out_weaken with (K := from E (rebase s0 s)); [|intros s'; apply rebase_later; exact L | intros v x s' _ H; exact H].
  eapply read_far with (n := 3 + a) (R := for_target); [intros ? ? ? ? HS; apply target_mono; exact HS | apply target_ok | exact F | exact Ls |].
  intros v x s' F' F'' Rv.
  assert (Rg' : regs (under U a) s' st) by (eapply regs_from; eassumption).
  destruct (set_later _ _ _ _ _ I (from_later _ _ F'') Rg') as (_ & Ls' & _ & attrs & items & N & A1 & A2 & A3 & A4 & A5 & A6 & A7 & A8 & NL & FI & HI).
  destruct (set_step' E (rebase s0 s) s' a _ attrs (dict_set "target" v attrs) "target" v _ F' (le_n _) N eq_refl) as (s2 & E2 & F2 & N2 & H2 & O2 & L2).
  { eapply isinstance_fresh; [discriminate | discriminate |]. destruct Rv as (b & Ib & _). eapply instance_type; exact Ib. }
  { reflexivity. }
  rewrite E2. apply out_ok; [exact F2|]. cbn [fst snd].
  assert (HS : hsub (hide (under U a) (ls_heap s')) (hide (under U a) (ls_heap s2))).
  { apply hide_hsub. intros b o HU Nb. split; [exact HU|]. rewrite O2; [exact Nb|]. intros ->. pose proof (under_in 0 ltac:(lia)) as X. cbn in X. congruence. }
  assert (HF : hsub (fresh (3 + a) (ls_heap s')) (hide (under U a) (ls_heap s2))).
  { apply hide_hsub. intros b o HU Nb. apply Nat.ltb_ge in HU. split; [|rewrite O2 by lia; exact Nb].
    unfold under. apply orb_false_iff. split.
    - destruct (U b) eqn:Ub; [|reflexivity]. apply B0 in Ub. fold a in Ub. lia.
    - apply andb_false_iff. right. apply Nat.leb_gt. lia. }
  split; [eapply rebase_later; [exact L | exact F2]|]. split; [rewrite L2; exact Ls'|].
  split. { destruct F2 as (_ & P1 & P2 & P3 & _). destruct F' as (_ & Q1 & Q2 & Q3 & _).
           eapply regs_later; [exact Rg' | exact HS | congruence | congruence | congruence]. }
  eexists. exists items. split; [exact N2|]. cbn [sc_description sc_target sc_policies].
  do 4 (split; [apply has_other; [discriminate|]; assumption|]).
  split; [apply has_other; [discriminate|]; eapply has_impl; [intros w; apply defaults_mono; exact HS | exact A5]|].
  split; [apply has_set; eapply target_mono; [exact HF | exact Rv]|].
  do 2 (split; [apply has_other; [discriminate|]; assumption|]). split; [rewrite O2 by lia; exact NL|].
  split; [eapply policies_mono; [exact HS | exact FI]|].
  destruct F2 as (_ & P1 & P2 & P3 & _). destruct F' as (_ & Q1 & Q2 & Q3 & _).
  intros i Ii. eapply held_more; [apply (more_eq s' s2); congruence | apply HI; exact Ii].
Qed.

(** PolicySetDefaults *)
Lemma set_defaults : forall n p st s Y (R : unit -> Y -> lstate -> Prop), so_far p st s ->
  out (later s0) R ((let> v := defaults_l E n in set_l E a "policyDefaults" v) s) (let* _ := read_defaults n in Raise EAttributeError).
Proof.
  intros n p st s Y R I. pose proof I as (L & Ls & Rg & _). pose proof (rebased _ _ L) as F.
  eapply out_weaken with (K := from E (rebase s0 s)); [|intros s'; apply rebase_later; exact L | intros v x s' _ H; exact H].
  eapply out_bind; [apply makes_at; [apply defaults_ok | exact F]|].
  intros v x s' F' (F'' & _).
  assert (Rg' : regs (under U a) s' st) by (eapply regs_from; eassumption).
  destruct (set_later _ _ _ _ _ I (from_later _ _ F'') Rg') as (_ & Ls' & _ & attrs & items & N & _).
  unfold set_l, do_l. cbn [ostep]. change (os_heap (ls_os s')) with (ls_heap s'). rewrite N. cbn [setter_type String.eqb Ascii.eqb Bool.eqb].
  apply out_raise. destruct s' as [[h mm] ? ? ?]. exact F'.
Qed.

(** the set is finished and registered *)
Lemma set_done : forall p st s, so_far p st s ->
  let q := PPolicySet (mkMeta (Some id) (Some ver) (Some algId) (sc_description p) None) (sc_target p) (Some alg) (sc_policies p) in
  out (later s0) (fun v x s' => for_policy (hide U (ls_heap s')) v (fst x) /\ held s' v /\ regs U s' (snd x))
    ((let> _ := add_policy_set_l (PRef a) in ret_l (PRef a)) s)
    (let* g := add_policy_set (fs_reg st) q in Ok (q, mkFstate g (fs_fetched st))).
Proof.
  intros p st s (L & Ls & Rg & attrs & items & N & A1 & A2 & A3 & A4 & A5 & A6 & A7 & A8 & NL & FI & HI) q.
  assert (HS : hsub (hide (under U a) (ls_heap s)) (hide U (ls_heap s))).
  { apply hide_hsub. intros b o HU Nb. split; [|exact Nb]. unfold under in HU. apply orb_false_iff in HU. apply HU. }
  assert (Rg' : regs U s st) by (eapply regs_later; [exact Rg | exact HS | reflexivity | reflexivity | reflexivity]).
  assert (Ua : forall i, U (i + a) = false).
  { intros i. destruct (U (i + a)) eqn:X; [|reflexivity]. apply B0 in X. fold a in X. lia. }
  assert (ND : nth_error (hide U (ls_heap s)) a = Some (PInst KPolicySet attrs)) by (apply hide_some; [exact (Ua 0) | exact N]).
  assert (Pq : for_policy (hide U (ls_heap s)) (PRef a) q).
  { eapply fp_policyset with (l := S a) (items := items); [eapply inst_of; exact ND| | | | | | | | | |]; cbn [pm_id pm_version pm_algId pm_description pm_xpathVersion].
    1-4: eapply has_attr; eassumption.
    - eapply has_attr; [exact ND|]. eapply has_impl; [intros v; apply defaults_mono; exact HS | exact A5].
    - eapply has_attr; [exact ND|]. eapply has_impl; [intros v; eapply maybe_local; [intros ? ?; eapply target_mono; eassumption]|exact A6].
    - eapply has_attr; eassumption.
    - destruct A8 as (w & Dw & ->). eapply get_of; [exact ND | exact Dw].
    - apply hide_some; [exact (Ua 1) | exact NL].
    - eapply policies_mono; eassumption. }
  destruct A1 as (w & Dw & Mw). apply key_of_maybe in Mw.
  unfold add_policy_set_l. unfold bind_l at 1. unfold bind_l at 1. unfold get_l. rewrite (get_of _ _ _ _ _ _ N Dw), Mw.
  unfold q at 1. cbn [add_policy_set pm_id]. unfold key_mem. pose proof Rg' as (R1 & R2 & R3 & R4).
  pose proof (object_for_holds _ (Some id) _ _ R2) as O. destruct (key_get (Some id) (rg_sets (fs_reg st))) as [z|].
  - destruct O as (u & Ou & _). rewrite Ou. cbn [bind]. apply out_raise. exact L.
  - rewrite O. cbn [bind]. apply out_ok.
    { eapply later_more; [exact L | reflexivity|]. split; [|split]; [exists []; rewrite app_nil_r; reflexivity | eexists; reflexivity | exists []; rewrite app_nil_r; reflexivity]. }
    cbn [fst snd]. split; [exact Pq|].
    assert (HM : holds_more s (mkLState (ls_os s) (ls_policies s) (ls_sets s ++ [(Some id, PRef a)]) (ls_fetched s))).
    { split; [|split]; [exists []; rewrite app_nil_r; reflexivity | eexists; reflexivity | exists []; rewrite app_nil_r; reflexivity]. }
    split. { exists (Some id). right. cbn. apply in_or_app. right. left. reflexivity. }
    split; [exact R1|]. split; [|split; [exact R3|]].
    { cbn. apply Forall2_app; [exact R2|]. constructor; [split; [reflexivity | exact Pq] | constructor]. }
    intros m k v I. cbn [ls_sets] in I. apply in_app_or in I. destruct I as [I|[I|[]]].
    + eapply lists_mono; [exact HM | | exact (R4 m k v I)]. intros x o Nx _. exact Nx.
    + injection I as <- <-. exists a, (S a), TPolicyBase, items. split; [reflexivity|].
      split; [destruct A8 as (u & Du & ->); eapply get_of; [exact ND | exact Du]|].
      split; [apply hide_some; [exact (Ua 1) | exact NL]|].
      intros i Ii. eapply held_more; [exact HM | apply HI; exact Ii].
Qed.
End OneSet.

Lemma set_ok : forall n, loads (set_reader_l E fetch fd nested_l n) (read_set E fetch fd nested n).
Proof.
  induction n as [t|tag attrs tx kids IH] using node_ind'; intros U st s G B Rg; cbn [set_reader_l read_set].
  all: destruct (make_step E KPolicySet s s (from_refl E s G)) as (s1 & E1 & F1 & H1); eapply out_step; [exact E1|]; clear E1.
  { apply out_raise, from_later; exact F1. }
  rewrite Forall_forall in IH. set (a := length (ls_heap s)) in *.
  pose proof (new_nth (ls_heap s) (PInst KPolicySet (new_inst (ls_heap s) KPolicySet)) (new_lists (ls_heap s) KPolicySet)) as N1. rewrite <- H1 in N1. fold a in N1.
  destruct (String.eqb (get_local_part tag) "PolicySet"); cbn [negb]; [|apply out_raise, from_later; exact F1].
  set (n := Elem tag attrs tx kids) in *.
  apply out_lift; [apply from_later; exact F1|]. intros id _. apply out_lift; [apply from_later; exact F1|]. intros algId _.
  assert (NL1 : nth_error (ls_heap s1) (S a) = Some (PTypedList TPolicyBase [])).
  { rewrite H1. exact (new_nth_at (ls_heap s) _ _ 0). }
  assert (L1 : 3 + a <= length (ls_heap s1)) by (rewrite H1, app_length; cbn; unfold a; lia).
  destruct (set_step' E s s1 a _ _ (dict_set "policySetId" (PNat (NStr id)) (new_inst (ls_heap s) KPolicySet)) "policySetId" (PNat (NStr id)) _ F1 (le_n _) N1 eq_refl)
    as (s2 & E2 & F2 & N2 & H2 & O2 & L2); [reflexivity | reflexivity |].
  eapply out_step; [exact E2|]. rewrite policy_alg_table.
  eapply out_bind.
  { eapply out_weaken; [eapply (set_algorithm E s s2 a); [exact F2 | apply le_n | exact N2 | right; auto] | intros s'; apply from_later|].
    intros v x s' F' H. exact (conj F' H). }
  intros [] alg s3 _ (F3 & H3).
  set (at3 := dict_set "policyCombiningAlg" (PAlg alg) (dict_set "policyCombiningAlgId" (PNat (NStr algId))
     (dict_set "policySetId" (PNat (NStr id)) (new_inst (ls_heap s) KPolicySet)))) in *.
  assert (N3 : nth_error (ls_heap s3) a = Some (PInst KPolicySet at3)) by (rewrite H3; eapply nth_replace_same; exact N2).
  destruct (set_step' E s s3 a _ _ (dict_set "version" (PNat (NStr (version_of n))) at3) "version" (PNat (NStr (version_of n))) _ F3 (le_n _) N3 eq_refl)
    as (s4 & E4 & F4 & N4 & H4 & O4 & L4); [reflexivity | reflexivity |].
  eapply out_step; [exact E4|].
  assert (I4 : set_so_far U s a id (version_of n) algId alg (mkSacc None None []) st s4).
  { split; [apply from_later; exact F4|]. split; [rewrite L4, H3, replace_length, L2; exact L1|].
    split.
    { destruct F4 as (Un & P1 & P2 & P3 & _). eapply regs_later; [exact Rg| |exact P1|exact P2|exact P3].
      apply hide_hsub. intros b o HU Nb. split; [|apply Un; exact Nb].
      assert (b < a) by (unfold a; apply nth_error_Some; congruence).
      unfold under. rewrite HU. cbn [orb]. apply andb_false_iff. left. apply Nat.leb_gt. lia. }
    eexists. exists []. split; [exact N4|].
    do 4 (split; [eexists; split; [reflexivity|]; reflexivity|]).
    split; [eexists; split; [reflexivity|]; left; split; reflexivity|].
    do 3 (split; [eexists; split; [reflexivity|]; reflexivity|]).
    split; [|split; [constructor | intros i []]]. rewrite O4, H3, nth_replace_other, O2 by lia. exact NL1. }
  match goal with |- out _ _ (bind_l (?g kids) _ _) (bind (?h kids _ _) _) =>
    assert (L : forall ks, (forall c, In c ks -> In c kids) -> forall p st' s',
      set_so_far U s a id (version_of n) algId alg p st' s' ->
      out (later s) (fun _ x s'' => set_so_far U s a id (version_of n) algId alg (fst x) (snd x) s'')
        (g ks s') (h ks p st')) end.
  { induction ks as [|k ks IHks]; intros Sub p st' s' I.
    { cbn beta iota. apply out_ok; [apply I | exact I]. }
    assert (Sub' : forall c, In c ks -> In c kids) by (intros c X; apply Sub; right; exact X).
    specialize (IHks Sub'). pose proof (IH k (Sub k (or_introl eq_refl))) as IHk.
    destruct k as [t ats txt sub|t]; cbn beta iota; [|apply IHks; exact I].
    set (k := Elem t ats txt sub) in *.
    eapply out_bind with (R := fun _ x s'' => set_so_far U s a id (version_of n) algId alg (fst x) (snd x) s'').
    2: { intros [] [p' st''] s'' _ I'. apply IHks. exact I'. }
    clear IHks. pose proof (proj1 I) as LI.
    destruct (String.eqb (get_local_part t) "Description"); [apply set_description; assumption|].
    destruct (String.eqb (get_local_part t) "PolicySetDefaults"); [eapply set_defaults; eassumption|].
    destruct (String.eqb (get_local_part t) "Target"); [apply set_target; assumption|].
    destruct (String.eqb (get_local_part t) "CombinerParameters"); [apply out_raise; exact LI|].
    destruct (String.eqb (get_local_part t) "PolicyCombinerParameters"); [apply out_raise; exact LI|].
    destruct (String.eqb (get_local_part t) "PolicySetCombinerParameters"); [apply out_raise; exact LI|].
    destruct (String.eqb (get_local_part t) "VariableDefinition"); [apply out_raise; exact LI|].
    destruct (String.eqb (get_local_part t) "Policy"); [apply set_item; [exact B | apply policy_reg_ok | exact I]|].
    destruct (String.eqb (get_local_part t) "PolicyIdReference"); [apply set_item; [exact B | apply find_policy_ok | exact I]|].
    destruct (String.eqb (get_local_part t) "PolicySet"); [apply set_item; [exact B | exact IHk | exact I]|].
    destruct (String.eqb (get_local_part t) "PolicySetIdReference"); [apply set_item; [exact B | apply find_set_ok | exact I]|].
    destruct (String.eqb (get_local_part t) "Obligations"); apply out_raise; exact LI. }
  eapply out_bind; [apply (L kids (fun c X => X)); exact I4|].
  intros [] [p st5] s5 _ I5. cbn [fst snd] in I5. apply set_done; assumption.
Qed.
End Nested.

Lemma doc_ok : forall limit n, loads (doc_l E fetch fd limit n) (read_doc limit E fetch fd n).
Proof.
  induction limit as [|limit IH]; intros n U st s G B Rg; cbn [doc_l read_doc]; [apply out_raise, later_refl; exact G|].
  apply out_lift; [apply later_refl; exact G|]. intros l _.
  destruct (String.eqb l "Policy"); [apply policy_reg_ok; assumption|].
  destruct (String.eqb l "PolicySet"); [|apply out_raise, later_refl; exact G].
  apply set_ok; [exact IH | exact G | exact B | exact Rg].
Qed.
End Sets.
