(** The statements of the readers, and the readers of policies. *)
From Verif Require Import SpecReadObjects ObjectsFacts ObjectsFacts2 ObjectsFacts3 FuncMapFacts StateFacts ReadObjectsFacts.
From Coq Require Import Lia.

Section Readers.
Variable E : renv.
Notation cm := (re_cm E).

Definition good (s : lstate) : Prop := same_map E s.
Lemma same_inv : forall m m', same_functions cm m m' -> exists cu, inv cm cu m /\ inv cm cu m'.
Proof.
  intros m m' (ops & ops' & -> & -> & C). exists (fun id => last_custom id ops). split.
  - exact (fm_run_inv cm ops (fun _ => None) fm_new (inv_new cm)).
  - eapply inv_ext; [intros i; symmetry; apply C|]. exact (fm_run_inv cm ops' (fun _ => None) fm_new (inv_new cm)).
Qed.
Lemma same_get : forall m m' id, same_functions cm m m' -> same_functions cm m (snd (fm_get cm id m')).
Proof.
  intros m m' id (ops & ops' & -> & -> & C). exists ops, (ops' ++ [FGet id]). split; [reflexivity|].
  split; [unfold fm_run; rewrite fold_left_app; reflexivity|].
  intros i. rewrite C. unfold last_custom. rewrite fold_left_app. reflexivity.
Qed.
Definition from (s0 s : lstate) : Prop :=
  untouched (ls_heap s0) (ls_heap s) /\ ls_policies s = ls_policies s0 /\ ls_sets s = ls_sets s0 /\
  ls_fetched s = ls_fetched s0 /\ good s.

Lemma from_refl : forall s, good s -> from s s.
Proof. intros s G. split; [apply untouched_refl|]. auto. Qed.
Lemma from_trans : forall a b c, from a b -> from b c -> from a c.
Proof.
  intros a b c (U1 & P1 & S1 & F1 & G1) (U2 & P2 & S2 & F2 & G2).
  split; [eapply untouched_trans; eassumption|]. repeat split; congruence || exact G2.
Qed.
Lemma from_good : forall a b, from a b -> good b.
Proof. intros a b (_ & _ & _ & _ & G). exact G. Qed.
Lemma from_untouched : forall a b, from a b -> untouched (ls_heap a) (ls_heap b).
Proof. intros a b (U & _). exact U. Qed.
Lemma from_length : forall a b, from a b -> length (ls_heap a) <= length (ls_heap b).
Proof. intros a b F. apply untouched_length, from_untouched, F. Qed.

(** *** New objects *)
Definition new_inst (h : heap) (c : pcls) : list (string * pval) :=
  fst (init_from (S (length h)) (init_attrs c)).
Definition new_lists (h : heap) (c : pcls) : list pobject :=
  snd (init_from (S (length h)) (init_attrs c)).
Lemma construct_eq : forall h c, construct h c = h ++ PInst c (new_inst h c) :: new_lists h c.
Proof. intros h c. unfold construct, new_inst, new_lists. destruct (init_from _ _). reflexivity. Qed.

Lemma from_append : forall s0 s l, from s0 s ->
  from s0 (with_os s (mkOState (ls_heap s ++ l) (os_map (ls_os s)))).
Proof.
  intros s0 s l (U & P & S & F & G). split; [|auto].
  eapply untouched_trans; [exact U | apply untouched_app].
Qed.

Lemma make_step : forall c s0 s, from s0 s -> exists s',
  make_l E (ONew c) s = (Ok (length (ls_heap s)), s') /\ from s0 s' /\
  ls_heap s' = ls_heap s ++ PInst c (new_inst (ls_heap s) c) :: new_lists (ls_heap s) c.
Proof.
  intros c s0 s F. eexists. split; [unfold make_l, do_l; cbn [ostep]; reflexivity|].
  change (os_heap (ls_os s)) with (ls_heap s).
  rewrite construct_eq. split; [apply from_append; exact F | reflexivity].
Qed.

(** *** Assignments *)
Definition plain (c : pcls) (name : string) : Prop :=
  forall v attrs m, assign cm c name v attrs m = (Ok tt, dict_set name v attrs, m).

Lemma from_replace : forall s0 s a o m, from s0 s -> length (ls_heap s0) <= a ->
  same_functions cm (re_fmap E) m ->
  from s0 (with_os s (mkOState (replace_nth a o (ls_heap s)) m)).
Proof.
  intros s0 s a o m (U & P & S & F & G) L G'. split; [apply untouched_replace; assumption|].
  repeat split; assumption.
Qed.

Lemma set_step : forall s0 s a c attrs name v t, from s0 s -> length (ls_heap s0) <= a ->
  nth_error (ls_heap s) a = Some (PInst c attrs) -> setter_type c name = Some t ->
  isinstance (ls_heap s) v t = true -> plain c name ->
  exists s', set_l E a name v s = (Ok tt, s') /\ from s0 s' /\
    ls_heap s' = replace_nth a (PInst c (dict_set name v attrs)) (ls_heap s).
Proof.
  intros s0 s a c attrs name v t F L N ST IS P. eexists. split.
  - unfold set_l, do_l. cbn [ostep]. change (os_heap (ls_os s)) with (ls_heap s).
    rewrite N, ST, IS, P. reflexivity.
  - split; [|reflexivity]. apply from_replace; [exact F | exact L | apply (from_good _ _ F)].
Qed.

Lemma load_function_good : forall id m, same_functions cm (re_fmap E) m ->
  fst (load_function cm id m) = load_fn E id /\ same_functions cm (re_fmap E) (snd (load_function cm id m)).
Proof.
  intros id m S. destruct (same_inv _ _ S) as (cu & I1 & I2). pose proof (same_get _ _ id S) as S'.
  unfold load_function, load_fn.
  destruct (fm_get_spec cm cu (re_fmap E) id I1) as [-> _].
  destruct (fm_get_spec cm cu m id I2) as [G I']. destruct (fm_get cm id m) as [r m']. cbn [fst snd] in *.
  rewrite <- G. destruct r as [[[]|]|]; cbn; auto.
Qed.

(** matchId of a match and functionId of an Apply load the function *)
Lemma set_function : forall s0 s a c attrs name id, from s0 s -> length (ls_heap s0) <= a ->
  nth_error (ls_heap s) a = Some (PInst c attrs) ->
  (exists k, c = KMatch k /\ name = "matchId"%string) \/ (c = KApply /\ name = "functionId"%string) ->
  dict_get "loadFunctionFromId" attrs = Some (PNat (NBool true)) ->
  out (from s0) (fun _ f s' => ls_heap s' =
         replace_nth a (PInst c (dict_set "function" (PFn f) (dict_set name (PNat (NStr id)) attrs))) (ls_heap s))
    (set_str E a name id s) (load_fn E id).
Proof.
  intros s0 s a c attrs name id F L N C B. unfold set_str, set_l, do_l. cbn [ostep].
  change (os_heap (ls_os s)) with (ls_heap s). rewrite N.
  destruct (load_function_good id (os_map (ls_os s)) (from_good _ _ F)) as [G I'].
  assert (B' : dict_get "loadFunctionFromId" (dict_set name (PNat (NStr id)) attrs) = Some (PNat (NBool true))).
  { destruct C as [(k & _ & ->)|[_ ->]]; rewrite dict_get_set_other; try exact B; discriminate. }
  assert (X : setter_type c name = Some TStr /\
    assign cm c name (PNat (NStr id)) attrs (os_map (ls_os s)) =
     let attrs1 := dict_set name (PNat (NStr id)) attrs in
     match load_function cm id (os_map (ls_os s)) with
     | (Ok f, m') => (Ok tt, dict_set "function" (PFn f) attrs1, m')
     | (Raise e, m') => (Raise e, attrs1, m')
     end).
  { destruct C as [(k & -> & ->)|[-> ->]]; split; try reflexivity; unfold assign; cbn [String.eqb Ascii.eqb Bool.eqb];
      rewrite B'; reflexivity. }
  destruct X as [-> ->]. cbn [isinstance].
  destruct (load_function cm id (os_map (ls_os s))) as [r m']. cbn [fst snd] in G, I'.
  rewrite <- G. destruct r as [f|e]; cbn.
  - apply out_ok; [|reflexivity]. apply from_replace; [exact F | exact L | eauto].
  - apply out_raise. apply from_replace; [exact F | exact L | eauto].
Qed.

Lemma append_step : forall s0 s a l c attrs name t items v, from s0 s -> length (ls_heap s0) <= l ->
  nth_error (ls_heap s) a = Some (PInst c attrs) -> dict_get name attrs = Some (PRef l) ->
  nth_error (ls_heap s) l = Some (PTypedList t items) -> isinstance (ls_heap s) v t = true ->
  exists s', append_l E a name v s = (Ok tt, s') /\ from s0 s' /\
    ls_heap s' = replace_nth l (PTypedList t (items ++ [v])) (ls_heap s).
Proof.
  intros s0 s a l c attrs name t items v F L N D NL IS. eexists. split.
  - unfold append_l, bind_l, get_l, get_attr. rewrite N, D. unfold do_l. cbn [ostep].
    change (os_heap (ls_os s)) with (ls_heap s). rewrite NL. cbn [tl_step]. unfold tl_append. rewrite IS.
    reflexivity.
  - split; [|reflexivity]. apply from_replace; [exact F | exact L | apply (from_good _ _ F)].
Qed.
Lemma append_refused : forall s0 s a l c attrs name t items v, from s0 s ->
  nth_error (ls_heap s) a = Some (PInst c attrs) -> dict_get name attrs = Some (PRef l) ->
  nth_error (ls_heap s) l = Some (PTypedList t items) -> isinstance (ls_heap s) v t = false ->
  exists s', append_l E a name v s = (Raise ETypeError, s') /\ from s0 s'.
Proof.
  intros s0 s a l c attrs name t items v F N D NL IS. eexists. split.
  - unfold append_l, bind_l, get_l, get_attr. rewrite N, D. unfold do_l. cbn [ostep].
    change (os_heap (ls_os s)) with (ls_heap s). rewrite NL. cbn [tl_step]. unfold tl_append. rewrite IS.
    reflexivity.
  - rewrite (replace_same _ _ _ _ NL). destruct F as (U & P & S & F & G). split; [exact U|]. auto.
Qed.
End Readers.
