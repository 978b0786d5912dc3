(** C92: PDPs in use while policies are built, changed, read and assigned. *)
From Verif Require Import SpecPdpLive SpecRead StateFacts ObjectsFacts ObjectsFacts2 ObjectsFacts3 ReadFacts ReadObjectsFacts5
  ResponseFacts EvalObjectsFacts EvalLiveFacts EvalLiveFacts2 Sample PropertiesEvalObjects PropertiesRead PropertiesReadObjects
  PropertiesEvalLive PdpLiveFacts.
From Coq Require Import Lia Relations.
Local Open Scope string_scope.
Local Open Scope list_scope.

(** As long as no operation is called on an object in use, every answer is the one that
    the PDP gives, with nothing else going on, at one moment during the call. *)
Theorem C92_moment : forall O n cm evs k pdp c r,
  orderly O n cm evs -> SpecPdpLive.made evs k pdp c -> steady O n cm evs k c -> answered O n cm evs k r ->
  exists before since, evs = before ++ since /\ pending O n cm before k pdp c /\
    r = o_pdp_evaluate O n (objects O n cm before) pdp c.
Proof.
  intros O n cm evs k pdp c r H M ST An. destruct (calls_going O n cm evs H k pdp c M ST) as (t & N & G).
  unfold answered in An. rewrite N in An. injection An as ->.
  destruct G as [G|(e1 & e2 & E & P & EV & _)]; [discriminate G|].
  exists e1, e2. split; [exact E|]. split; [exact P|].
  exact (ev_done_inv O _ _ _ _ _ _ EV r eq_refl).
Qed.

(** And every call that goes on and on ends, whatever the other threads do. *)
Theorem C92_ends : forall O n cm (f : nat -> happening) k pdp c m0,
  (forall m, orderly O n cm (first m f)) -> (forall m, steady O n cm (first m f) k c) ->
  (forall m, exists m', m <= m' /\ f m' = HStep k) -> SpecPdpLive.made (first m0 f) k pdp c ->
  exists m r, answered O n cm (first m f) k r.
Proof. exact call_ends. Qed.

(** An answer stays. *)
Theorem C92_final : forall O n cm evs more k r,
  answered O n cm evs k r -> answered O n cm (evs ++ more) k r.
Proof. intros O n cm evs more k r. apply answered_later. Qed.

(** Once a policy is in force and until another is assigned, the calls made are answered
    by it, as it is during the call. *)
Theorem C92_latest : forall O n cm e0 e2 k a p c r,
  orderly O n cm (e0 ++ e2) -> SpecPdpLive.in_force O n cm e0 (PRef a) p ->
  (forall o, In (HDo o) e2 -> touches o <> Some a) ->
  length (calls_in e0) <= k -> SpecPdpLive.made (e0 ++ e2) k (PRef a) c -> steady O n cm (e0 ++ e2) k c ->
  answered O n cm (e0 ++ e2) k r ->
  exists before since, e2 = before ++ since /\ pending O n cm (e0 ++ before) k (PRef a) c /\
    r = o_response O n (objects O n cm (e0 ++ before)) c (PRef p).
Proof.
  intros O n cm e0 e2 k a p c r H (a' & Q & G) T L M ST An. injection Q as <-.
  destruct (C92_moment O n cm _ k _ c r H M ST An) as (e1 & x & E & P & ->).
  destruct (longer O n cm e0 e2 e1 x k _ c E L P) as (y & -> & ->).
  exists y, x. split; [reflexivity|]. split; [exact P|]. unfold o_pdp_evaluate. cbn [attr].
  rewrite app_assoc in H.
  rewrite (attr_during O n cm e0 y a "policy" (PRef p) (orderly_prefix O n cm _ _ H)); [reflexivity| |exact G].
  intros o I. apply T. apply in_or_app. left. exact I.
Qed.

(** Without other threads: if the policy object stands for [p] and the request for [ctx],
    the response is the one of C42; without a policy AttributeError is raised. *)
Theorem C92_meaning : forall O E n h a c ctx v,
  get_attr h a "policy" = Ok v -> for_context h c ctx -> same_answers h O E ->
  (forall p, for_policy h v p -> policy_depth p <= n ->
     o_pdp_evaluate O n h (PRef a) c = pdp_evaluate E store0 ctx (Some p)) /\
  (v = PNone -> o_pdp_evaluate O n h (PRef a) c = pdp_evaluate E store0 ctx None).
Proof.
  intros O E n h a c ctx v G C A. unfold o_pdp_evaluate. cbn [attr]. rewrite G. cbn [bind]. split.
  - intros p P L. assert (R : exists b, v = PRef b) by (inversion P; subst; match goal with H : instance h _ _ _ |- _ => destruct H as (-> & _) end; eauto).
    destruct R as (b & ->). unfold o_response, pdp_evaluate, evaluateResponse.
    rewrite (C75_document O E h (PRef b) p c ctx n P C A L), create_na. cbn [bind].
    pose proof (read_policy E store0 ctx (fun d => eq_refl) p) as R. unfold read in R.
    destruct (policy_eval_o E store0 ctx p) as [o|e] eqn:Q; rewrite <- R; [|reflexivity].
    destruct (policy_shared _ _ _ _ _ Q) as (d & ->). reflexivity.
  - intros ->. reflexivity.
Qed.

(** A policy read from a document and assigned to a PDP while calls go on: the calls made
    from then on have the response of the policy that the document means, until an
    operation is called on the PDP or on a part of the policy. *)
Theorem C92_document : forall O EE n cm e0 e2 RE fetch fd limit d K F v s' a attrs k c ctx r,
  let e := e0 ++ HRead RE fetch fd limit d :: HDo (OSet a "policy" v) :: e2 in
  let after_read := objects O n cm (e0 ++ [HRead RE fetch fd limit d]) in
  orderly O n cm e -> default_readers RE ->
  finder_for (sv_state (after O n cm e0)) (mkFstate (holding K) F) ->
  doc_l RE fetch fd limit d (sv_state (after O n cm e0)) = (Ok v, s') ->
  nth_error (objects O n cm e0) a = Some (PInst KPdp attrs) ->
  (forall o b, In (HDo o) e2 -> touches o = Some b ->
     b <> a /\ forall p, v = PRef p -> ~ reaches after_read p b) ->
  (forall p, v = PRef p -> ~ reaches after_read p a) ->
  length (calls_in e0) <= k -> SpecPdpLive.made e k (PRef a) c -> steady O n cm e k c -> answered O n cm e k r ->
  (forall before since, e = before ++ since -> pending O n cm before k (PRef a) c ->
     for_context (objects O n cm before) c ctx /\ same_answers (objects O n cm before) O EE) ->
  exists p K' urls, reads RE fetch fd d K K' urls p /\
    (policy_depth p <= n -> r = pdp_evaluate EE store0 ctx (Some p)).
Proof.
  intros O EE n cm e0 e2 RE fetch fd limit d K F v s' a attrs k c ctx r e after_read H HE FF D Na T Ta L M ST An C.
  unfold e in *. clear e.
  set (e0' := e0 ++ [HRead RE fetch fd limit d; HDo (OSet a "policy" v)]) in *.
  assert (Q : e0 ++ HRead RE fetch fd limit d :: HDo (OSet a "policy" v) :: e2 = e0' ++ e2).
  { unfold e0'. rewrite <- app_assoc. reflexivity. }
  rewrite Q in *. clear Q.
  assert (H0 : orderly O n cm e0') by exact (orderly_prefix O n cm _ _ H).
  assert (Q' : e0' = (e0 ++ [HRead RE fetch fd limit d]) ++ [HDo (OSet a "policy" v)]) by (unfold e0'; rewrite <- app_assoc; reflexivity).
  assert (H1 : orderly O n cm (e0 ++ [HRead RE fetch fd limit d])) by (rewrite Q' in H0; exact (orderly_prefix O n cm _ _ H0)).
  destruct (orderly_last O n cm _ _ H1) as (Ec & SM & _).
  destruct (C85_only RE fetch fd limit _ K F d v s' HE SM FF D) as (p & K' & urls & R & P & _).
  exists p, K', urls. split; [exact R|]. intro Depth.
  assert (Ho : after_read = ls_heap s').
  { unfold after_read, objects. rewrite after_snoc. cbn [happens sv_state]. rewrite D. reflexivity. }
  assert (Pv : exists b, v = PRef b) by (inversion P; subst; match goal with H : instance _ _ _ _ |- _ => destruct H as (-> & _) end; eauto).
  destruct Pv as (b & ->).
  assert (Na1 : nth_error after_read a = Some (PInst KPdp attrs)).
  { unfold after_read. apply objects_step; [exact (orderly_last O n cm _ _ H1) | discriminate | exact Na]. }
  assert (W1 : well_formed after_read) by exact (orderly_well_formed O n cm _ H1).
  assert (Pol : isinstance after_read (PRef b) TPolicyBase = true).
  { rewrite Ho. cbn. inversion P; subst; match goal with H : instance _ _ _ _ |- _ => destruct H as (Qi & at' & N); injection Qi as -> end;
      rewrite N; reflexivity. }
  assert (Other : forall x, x <> a -> forall o, nth_error after_read x = Some o -> nth_error (objects O n cm e0') x = Some o).
  { intros x Nx o No. rewrite Q'. apply objects_step; [rewrite Q' in H0; exact (orderly_last O n cm _ _ H0) | | exact No].
    intros o' Qo. injection Qo as <-. cbn. congruence. }
  assert (IF : SpecPdpLive.in_force O n cm e0' (PRef a) b).
  { exists a. split; [reflexivity|]. unfold objects. rewrite Q', after_snoc. cbn [happens sv_state with_os ls_heap].
    unfold ls_heap. cbn [ls_os]. unfold get_attr. unfold after_read, objects, ls_heap in Na1, Pol.
    cbn [ostep]. rewrite Na1. change (setter_type KPdp "policy") with (Some TPolicyBase). cbv iota beta. rewrite Pol. cbn [snd os_heap assign].
    cbn [with_os ls_os os_heap].
    rewrite (replace_same _ _ _ _ _ Na1). rewrite StateFacts.dict_get_set_same. reflexivity. }
  assert (L' : length (calls_in e0') <= k).
  { unfold e0'. rewrite calls_app, app_length. cbn. lia. }
  destruct (C92_latest O n cm e0' e2 k a b c r H IF) as (before & since & -> & Pn & ->); try assumption.
  { intros o I X. exact (proj1 (T o a I X) eq_refl). }
  destruct (C (e0' ++ before) since) as (FC & SA); [rewrite app_assoc; reflexivity | exact Pn |].
  rewrite app_assoc in H. pose proof (orderly_prefix O n cm _ _ H) as Hb.
  assert (Part : for_policy (objects O n cm (e0' ++ before)) (PRef b) p).
  { apply (ObjectsFacts2.policy_local after_read); [rewrite Ho; exact P|].
    intros x y X Ry. injection X as <-.
    assert (E : nth_error after_read y <> None).
    { apply (reaches_object _ b y W1); [|exact Ry]. rewrite Ho. exact (for_policy_object _ _ _ P). }
    destruct (nth_error after_read y) as [o|] eqn:No; [|congruence].
    apply (objects_during O n cm e0' before y o Hb).
    - intros o' I X. apply (proj2 (T o' y (in_or_app _ _ _ (or_introl I)) X) b eq_refl Ry).
    - apply Other; [|exact No]. intros ->. exact (Ta b eq_refl Ry). }
  assert (G : get_attr (objects O n cm (e0' ++ before)) a "policy" = Ok (PRef b)).
  { destruct IF as (a' & X & G). injection X as <-. apply (attr_during O n cm e0' before a "policy" (PRef b) Hb); [|exact G].
    intros o I X. exact (proj1 (T o a (in_or_app _ _ _ (or_introl I)) X) eq_refl). }
  destruct (C92_meaning O EE n _ a c ctx (PRef b) G FC SA) as (Me & _).
  rewrite <- (Me p Part Depth). unfold o_pdp_evaluate. cbn [attr]. rewrite G. reflexivity.
Qed.

(** *** What does not hold *)

(** A policy in force is changed in place while a call goes on: at every moment of the
    call the PDP would deny, and yet the call permits. *)
Definition in_place : list happening :=
  map HDo (three_rules ++ [ONew KPdp; OSet 13 "policy" (PRef 0)]) ++
  HCall (PRef 13) PNone :: repeat (HStep 0) 24 ++ HDo (ODelete 1 0) :: repeat (HStep 0) 100.

Definition denies (r : res response) : bool :=
  match r with
  | Ok [x] => match rs_decision x with Some (DShared Deny) => true | _ => false end
  | _ => false
  end.
Lemma denies_decides : forall r, denies r = true -> decides r Deny.
Proof.
  intros [[|x []]|e] H; try discriminate H. cbn in H. destruct (rs_decision x) as [[[]|]|] eqn:D; try discriminate H.
  exists x, (DShared Deny). auto.
Qed.

Lemma split_firstn : forall A (l a b : list A), l = a ++ b -> a = firstn (length a) l /\ length a <= length l.
Proof.
  intros A l a b ->. rewrite firstn_app, PeanoNat.Nat.sub_diag, firstn_all, firstn_O, app_nil_r, app_length. split; [reflexivity | lia].
Qed.
Lemma all_prefixes : forall A (l : list A) (P : list A -> bool),
  forallb (fun i => P (firstn i l)) (seq 0 (S (length l))) = true -> forall a b, l = a ++ b -> P a = true.
Proof.
  intros A l P H a b E. apply split_firstn in E. destruct E as (Q & L). rewrite forallb_forall in H.
  rewrite Q. apply (H (length a)). apply in_seq. lia.
Qed.

Theorem C92_in_place_refuted : exists O n evs r,
  SpecPdpLive.made evs 0 (PRef 13) PNone /\ steady O n STD_CLASS_MAP evs 0 PNone /\
  answered O n STD_CLASS_MAP evs 0 r /\ decides r Permit /\
  forall before since, evs = before ++ since -> SpecPdpLive.made before 0 (PRef 13) PNone ->
    decides (o_pdp_evaluate O n (objects O n STD_CLASS_MAP before) (PRef 13) PNone) Deny.
Proof.
  exists shared_answers, 5, in_place. eexists. split; [reflexivity|]. split; [|split; [|split]].
  - intros e1 e2 e3 pdp _ _ _. split; discriminate.
  - vm_compute. reflexivity.
  - eexists _, (DShared Permit). split; [reflexivity|]. split; reflexivity.
  - intros before since E M. apply denies_decides.
    assert (X : forallb (fun i => match calls_in (firstn i in_place) with
        | [] => true
        | _ => denies (o_pdp_evaluate shared_answers 5 (objects shared_answers 5 STD_CLASS_MAP (firstn i in_place)) (PRef 13) PNone)
        end) (seq 0 (S (length in_place))) = true) by (vm_compute; reflexivity).
    pose proof (all_prefixes _ in_place (fun e => match calls_in e with
        | [] => true
        | _ => denies (o_pdp_evaluate shared_answers 5 (objects shared_answers 5 STD_CLASS_MAP e) (PRef 13) PNone)
        end) X before since E) as Y. cbn beta in Y.
    unfold SpecPdpLive.made in M. destruct (calls_in before); [discriminate M | exact Y].
Qed.

(** *** A case for the others: two calls of one PDP overlap, and between their beginnings
    another policy is built and assigned; the second is answered first, by the new policy,
    and the first by the old one. *)
Definition O_case : oenv := mkOenv sF STD_CLASS_MAP (fun _ _ _ => Ok None) (fun _ _ _ => Ok []).
Definition swap : list happening :=
  map HDo (shared ++ [ONew KPdp; OSet 28 "policy" (PRef 0)]) ++
  HCall (PRef 28) (PRef 21) :: repeat (HStep 0) 40 ++
  HDo (ONew KPolicy) :: HStep 0 ::                           (* 29, rules 30, obligations 31 *)
  HDo (OSet 29 "ruleCombiningAlgId" (PNat (NStr "urn:oasis:names:tc:xacml:1.0:rule-combining-algorithm:deny-overrides"))) ::
  HDo (ONew KRule) :: HStep 0 ::                             (* 32 *)
  HDo (ONewEffect (PNat (NStr "Deny"))) ::                   (* 33 *)
  HDo (OSet 32 "effect" (PRef 33)) :: HDo (OList 30 (LAppend (PRef 32))) :: HStep 0 ::
  HDo (OSet 28 "policy" (PRef 29)) ::
  HCall (PRef 28) (PRef 21) :: repeat (HStep 1) 100 ++ repeat (HStep 0) 800.

(** the objects of the old policy and the request *)
Definition old (a : nat) : bool := Nat.ltb a 28.
Definition old_root (v : res pval) : bool :=
  match v with Ok (PRef p) => old p | _ => true end.
Definition fine (evs : list happening) (i : nat) : bool :=
  let before := firstn i evs in
  match nth_error evs i with
  | Some (HDo o) =>
      if plain o then
        match touches o, calls_in before with
        | Some b, [_] =>
            if old b then false
            else if inside old (objects O_case 5 STD_CLASS_MAP before)
            then forallb (fun j => match calls_in (firstn j before) with
                                   | [] => true
                                   | _ => old_root (get_attr (objects O_case 5 STD_CLASS_MAP (firstn j before)) 28 "policy")
                                   end) (seq 0 (S (length before)))
            else false
        | Some b, [] => true
        | None, _ => true
        | _, _ => false
        end
      else false
  | Some (HCall (PRef 28) (PRef 21)) => Nat.ltb 28 (length (objects O_case 5 STD_CLASS_MAP before))
  | Some (HStep _) => true
  | _ => false
  end.
Lemma calls_made : forall evs k pdp c, SpecPdpLive.made evs k pdp c -> In (pdp, c) (calls_in evs).
Proof. intros evs k pdp c M. eapply nth_error_In. exact M. Qed.

Lemma swap_calls : forall before since pdp c, swap = before ++ since -> In (pdp, c) (calls_in before) ->
  pdp = PRef 28 /\ c = PRef 21.
Proof.
  intros before since pdp c E I. assert (J : In (pdp, c) (calls_in swap)) by (rewrite E, calls_app; apply in_or_app; left; exact I).
  vm_compute in J. destruct J as [J|[J|[]]]; injection J as <- <-; auto.
Qed.

Lemma swap_orderly : orderly O_case 5 STD_CLASS_MAP swap.
Proof.
  intros before ev later E.
  assert (X : forallb (fine swap) (seq 0 (length swap)) = true) by (vm_compute; reflexivity).
  rewrite forallb_forall in X. destruct (split_firstn _ _ _ _ E) as (Q & _).
  assert (N : nth_error swap (length before) = Some ev).
  { rewrite E, nth_error_app2, PeanoNat.Nat.sub_diag by lia. reflexivity. }
  specialize (X (length before)). unfold fine in X. rewrite N, <- Q in X.
  assert (L : In (length before) (seq 0 (length swap))).
  { apply in_seq. rewrite E, app_length. cbn [length]. lia. }
  specialize (X L). clear L N Q.
  destruct ev as [pdp c|k|o|RE fetch fd limit d|ops|]; try exact I; try discriminate X.
  - unfold allowed. intros r ->.
    assert (J : In (pdp, PRef r) (calls_in (before ++ [HCall pdp (PRef r)]))) by (rewrite calls_app; apply in_or_app; right; left; reflexivity).
    destruct (swap_calls _ later _ _ (eq_trans E (app_assoc before [HCall pdp (PRef r)] later)) J) as (-> & Q). injection Q as ->.
    apply nth_error_Some. apply PeanoNat.Nat.ltb_lt in X. exact (PeanoNat.Nat.lt_trans 21 28 _ ltac:(lia) X).
  - destruct (plain o) eqn:P; [|discriminate X]. split.
    { pose proof (plain_careful STD_CLASS_MAP [o] (mkOState (objects O_case 5 STD_CLASS_MAP before) fm_new)) as C.
      cbn [forallb] in C. rewrite P in C. exact (proj1 (C eq_refl)). }
    intros b T. rewrite T in X. intros (k & pdp & c & Pn & U).
    pose proof (calls_made _ _ _ _ (proj1 Pn)) as J. destruct (swap_calls _ _ _ _ E J) as (-> & ->).
    destruct (calls_in before) as [|x [|]] eqn:Cb; [destruct J| |discriminate X].
    destruct (old b) eqn:Ob; [discriminate X|].
    destruct (inside old (objects O_case 5 STD_CLASS_MAP before)) eqn:In'; [|discriminate X].
    destruct U as [(r & Q & R)|(b0 & s0 & p & Q & M & (a & Qa & G) & R)].
    + injection Q as <-. apply (inside_reaches _ _ _ _ In') in R; [congruence | reflexivity].
    + injection Qa as <-. apply (inside_reaches _ _ _ _ In') in R; [congruence|].
      destruct (split_firstn _ _ _ _ Q) as (Q1 & L1). rewrite forallb_forall in X. specialize (X (length b0)).
      rewrite <- Q1 in X. apply calls_made in M.
      assert (Z : In (length b0) (seq 0 (S (length before)))) by (apply in_seq; lia). specialize (X Z).
      destruct (calls_in b0) as [|y ys]; [destruct M|]. rewrite G in X. exact X.
Qed.

Example C92_case :
  orderly O_case 5 STD_CLASS_MAP swap /\
  (forall k, steady O_case 5 STD_CLASS_MAP swap k (PRef 21)) /\
  (exists r, answered O_case 5 STD_CLASS_MAP swap 0 r /\ decides r Permit) /\
  (exists r, answered O_case 5 STD_CLASS_MAP swap 1 r /\ decides r Deny).
Proof.
  split; [exact swap_orderly|]. split; [intros k e1 e2 e3 pdp _ _ _; split; reflexivity|]. split.
  - eexists. split; [vm_compute; reflexivity|]. eexists _, _. split; [reflexivity|]. split; reflexivity.
  - eexists. split; [vm_compute; reflexivity|]. eexists _, _. split; [reflexivity|]. split; reflexivity.
Qed.

(** *** A case for C92_document: a PDP without policy is called, then gets a policy read
    from a document, and is called again. *)
Definition E_case : env := mkEnv sF STD_CLASS_MAP (fun _ _ => Ok None) (fun _ _ => Ok []).
Definition load0 : list happening :=
  [HDo (ONew KPdp); HDo (ONew KRequest); HCall (PRef 0) (PRef 1); HStep 0; HStep 0].
Definition loading : happening := HRead std_renv web LocalFinder 5 (d_policy "q" [d_rule "a"]).
Definition load2 : list happening := HCall (PRef 0) (PRef 1) :: repeat (HStep 1) 200.
Definition load : list happening := load0 ++ loading :: HDo (OSet 0 "policy" (PRef 4)) :: load2.


Lemma load2_quiet : Forall (fun ev => match ev with HCall _ _ | HStep _ => True | _ => False end) load2.
Proof. unfold load2. constructor; [exact I|]. rewrite Forall_forall. intros x J. apply repeat_spec in J. subst x. exact I. Qed.

Definition loaded : heap := Eval vm_compute in objects O_case 5 STD_CLASS_MAP (load0 ++ [loading; HDo (OSet 0 "policy" (PRef 4))]).
Lemma loaded_eq : forall y x, load2 = y ++ x ->
  objects O_case 5 STD_CLASS_MAP ((load0 ++ [loading; HDo (OSet 0 "policy" (PRef 4))]) ++ y) = loaded.
Proof.
  intros y x E. rewrite objects_quiet; [vm_compute; reflexivity|]. pose proof load2_quiet as F. rewrite E in F.
  apply Forall_app in F. apply F.
Qed.

Lemma start_same : finder_for (sv_state (after O_case 5 STD_CLASS_MAP load0)) (mkFstate (holding []) []).
Proof. repeat split; constructor. Qed.
Lemma start_map : same_map std_renv (sv_state (after O_case 5 STD_CLASS_MAP load0)).
Proof. apply std_same. vm_compute. reflexivity. Qed.

Lemma load_orderly : orderly O_case 5 STD_CLASS_MAP load.
Proof.
  intros before ev later E.
  assert (D : (exists y, before = (load0 ++ [loading; HDo (OSet 0 "policy" (PRef 4))]) ++ y /\ load2 = y ++ ev :: later) \/
    length before < 7).
  { destruct (PeanoNat.Nat.lt_ge_cases (length before) 7) as [L|L]; [right; exact L|]. left.
    replace load with ((load0 ++ [loading; HDo (OSet 0 "policy" (PRef 4))]) ++ load2) in E by reflexivity.
    symmetry in E. apply app_eq_app in E. destruct E as (l & [[E1 E2]|[E1 E2]]).
    - exists l. auto.
    - assert (l = []) as ->.
      { apply (f_equal (@List.length happening)) in E1. rewrite !app_length in E1. cbn in E1. destruct l; [reflexivity|]. cbn in E1. lia. }
      rewrite app_nil_r in E1. exists []. rewrite app_nil_r. split; [symmetry; exact E1 | exact (eq_sym E2)]. }
  destruct D as [(y & Eb & Q)|L].
  - assert (J : In ev load2) by (rewrite Q; apply in_or_app; right; left; reflexivity).
    destruct J as [<-|J]; [|apply repeat_spec in J; subst ev; exact I].
    intros r R. injection R as <-. rewrite Eb, (loaded_eq y _ Q). discriminate.
  - unfold load, load0, loading in E. cbn [app] in E.
    repeat (destruct before as [|? before]; [injection E as <- _; clear L|
      injection E as <- E; try (exfalso; cbn [Datatypes.length] in L; lia)]).
    + split; [exact I | discriminate].
    + split; [exact I | discriminate].
    + intros r R. injection R as <-. discriminate.
    + exact I.
    + exact I.
    + split; [reflexivity|]. split; [exact start_map|]. eexists. exact start_same.
    + split.
      * intros attrs l t items N. vm_compute in N. discriminate N.
      * intros b _ (k & pdp & c & (M & P) & _). unfold SpecPdpLive.made in M. destruct k as [|k]; [|destruct k; discriminate M].
        apply (P (Raise EAttributeError)). vm_compute. reflexivity.
Qed.

Example C92_document_case :
  orderly O_case 5 STD_CLASS_MAP load /\ default_readers std_renv /\
  finder_for (sv_state (after O_case 5 STD_CLASS_MAP load0)) (mkFstate (holding []) []) /\
  (exists s', doc_l std_renv web LocalFinder 5 (d_policy "q" [d_rule "a"]) (sv_state (after O_case 5 STD_CLASS_MAP load0)) =
     (Ok (PRef 4), s')) /\
  nth_error (objects O_case 5 STD_CLASS_MAP load0) 0 = Some (PInst KPdp [("policy", PNone)]) /\
  (forall o b, In (HDo o) load2 -> touches o = Some b ->
     b <> 0 /\ forall p, PRef 4 = PRef p -> ~ reaches (objects O_case 5 STD_CLASS_MAP (load0 ++ [loading])) p b) /\
  (forall p, PRef 4 = PRef p -> ~ reaches (objects O_case 5 STD_CLASS_MAP (load0 ++ [loading])) p 0) /\
  length (calls_in load0) <= 1 /\ SpecPdpLive.made load 1 (PRef 0) (PRef 1) /\
  steady O_case 5 STD_CLASS_MAP load 1 (PRef 1) /\
  (forall before since, load = before ++ since -> pending O_case 5 STD_CLASS_MAP before 1 (PRef 0) (PRef 1) ->
     for_context (objects O_case 5 STD_CLASS_MAP before) (PRef 1) (CtxRequest (mkRequest [] [] None None None None)) /\
     same_answers (objects O_case 5 STD_CLASS_MAP before) O_case E_case) /\
  answered O_case 5 STD_CLASS_MAP load 0 (Raise EAttributeError) /\
  (exists r, answered O_case 5 STD_CLASS_MAP load 1 r /\ decides r Indeterminate).
Proof.
  split; [exact load_orderly|]. split; [exact C43_std_readers|]. split; [exact start_same|].
  split; [eexists; vm_compute; reflexivity|]. split; [vm_compute; reflexivity|].
  split.
  { intros o b J. exfalso. pose proof load2_quiet as F. rewrite Forall_forall in F. exact (F _ J). }
  split.
  { intros p Q R. injection Q as <-.
    assert (X : inside (fun a => Nat.leb 4 a) (objects O_case 5 STD_CLASS_MAP (load0 ++ [loading])) = true) by (vm_compute; reflexivity).
    apply (inside_reaches _ _ _ _ X) in R; [discriminate R | reflexivity]. }
  split; [vm_compute; lia|]. split; [reflexivity|].
  split; [intros e1 e2 e3 pdp _ _ _; split; reflexivity|].
  split.
  { intros before since E P.
    replace load with ((load0 ++ [loading; HDo (OSet 0 "policy" (PRef 4))]) ++ load2) in E by reflexivity.
    destruct (longer O_case 5 STD_CLASS_MAP (load0 ++ [loading; HDo (OSet 0 "policy" (PRef 4))]) load2 before since 1 (PRef 0) (PRef 1) E) as (y & -> & Q);
      [vm_compute; lia | exact P |].
    rewrite (loaded_eq y since Q). split.
    - cbn [for_context].
      repeat match goal with
         | |- instance _ _ _ _ => split; [reflexivity | eexists; reflexivity]
         | |- attr_is _ _ _ _ => eexists; split; [reflexivity | cbn [maybe rq_subjects rq_resources
              rq_action rq_environment rq_ctxHandler rq_selector]]
         | |- listing _ _ _ _ => do 3 eexists; split; [reflexivity | split; [reflexivity|]]
         | |- Forall2 _ _ _ => constructor
         | |- for_request _ _ _ => eexists
         | |- exists _, _ => eexists
         | |- _ /\ _ => split
         | |- _ => reflexivity
         end.
    - split; [reflexivity|]. split; [reflexivity|]. split; reflexivity. }
  split; [vm_compute; reflexivity|].
  eexists. split; [vm_compute; reflexivity|]. eexists _, _. split; [reflexivity|]. split; reflexivity.
Qed.

Print Assumptions C92_moment.
Print Assumptions C92_ends.
Print Assumptions C92_final.
Print Assumptions C92_latest.
Print Assumptions C92_meaning.
Print Assumptions C92_document.
Print Assumptions C92_in_place_refuted.
