(** Lemmas about finders shared by threads. *)
From Verif Require Import FinderThreads SpecText SpecRead SpecFinderThreads.
From Verif Require Import EvalFacts StringFacts TextFacts ReadFacts ReadFacts3.
From Coq Require Import Lia.
Local Open Scope list_scope.

Definition nm (m : pmap) (k : option string) : name :=
  match m with InPolicies => PolicyName k | InSets => SetName k end.

(** ** The dicts *)
Lemma opt_key_refl : forall k, opt_eqb String.eqb k k = true.
Proof. intros k. apply okey_eq. reflexivity. Qed.

Lemma key_put_same : forall k p d, key_get k (key_put k p d) = Some p.
Proof.
  intros k p d. induction d as [|[k' q] d IH]; cbn [key_put key_get].
  - rewrite opt_key_refl. reflexivity.
  - destruct (opt_eqb String.eqb k k') eqn:Eo; cbn [key_get]; rewrite Eo; [reflexivity|exact IH].
Qed.
Lemma key_put_other : forall k k' p d, k <> k' -> key_get k' (key_put k p d) = key_get k' d.
Proof.
  intros k k' p d Hne. induction d as [|[k1 q] d IH]; cbn [key_put key_get].
  - destruct (opt_eqb String.eqb k' k) eqn:Eo; [|reflexivity]. apply okey_eq in Eo. congruence.
  - destruct (opt_eqb String.eqb k k1) eqn:Eo; cbn [key_get].
    + apply okey_eq in Eo. subst k1. destruct (opt_eqb String.eqb k' k) eqn:Eo'; [|reflexivity].
      apply okey_eq in Eo'. congruence.
    + rewrite IH. reflexivity.
Qed.
Lemma key_put_absent : forall k p d, key_get k d = None -> key_put k p d = d ++ [(k, p)].
Proof.
  intros k p d. induction d as [|[k' q] d IH]; cbn [key_put key_get]; [reflexivity|].
  destruct (opt_eqb String.eqb k k') eqn:Eo; [discriminate|]. intros H. rewrite IH by exact H. reflexivity.
Qed.

Lemma put_at_same : forall m k p g, key_get k (map_at m (put_at m k p g)) = Some p.
Proof. intros [|] k p g; cbn; apply key_put_same. Qed.
Lemma put_at_other : forall m k m' k' p g, nm m k <> nm m' k' ->
  key_get k' (map_at m' (put_at m k p g)) = key_get k' (map_at m' g).
Proof.
  intros [|] k [|] k' p g Hne; cbn; try reflexivity; apply key_put_other; intros ->; apply Hne; reflexivity.
Qed.

(** ** Programs that keep to a contract *)
Section Safe.
Variable L : pmap -> option string -> Prop.                          (* may look up *)
Variable A : pmap -> option string -> option policybase -> Prop.     (* answers *)
Variable G : pmap -> option string -> policybase -> Prop.            (* may assign *)
Variable F : string -> res node -> Prop.                             (* documents *)

Fixpoint safe {T} (Q : res T -> Prop) (t : FT T) : Prop :=
  match t with
  | FDone r => Q r
  | FLook m k c => L m k /\ forall o, A m k o -> safe Q (c o)
  | FPut m k p c => G m k p /\ safe Q c
  | FFetch u c => forall r, F u r -> safe Q (c r)
  end.

Lemma safe_weaken : forall T (Q Q' : res T -> Prop) t, (forall r, Q r -> Q' r) -> safe Q t -> safe Q' t.
Proof.
  intros T Q Q' t H. induction t as [r|m k c IH|m k p c IH|u c IH]; cbn [safe]; intros Hs.
  - apply H, Hs.
  - destruct Hs as [Hl Hs]. split; [exact Hl|]. intros o Ho. apply IH, Hs, Ho.
  - destruct Hs as [Hg Hs]. split; [exact Hg|]. apply IH, Hs.
  - intros r Hr. apply IH, Hs, Hr.
Qed.
Lemma safe_then : forall T U (Q : res T -> Prop) (Q' : res U -> Prop) t f,
  safe Q t -> (forall r, Q r -> safe Q' (f r)) -> safe Q' (then_f t f).
Proof.
  intros T U Q Q' t f. induction t as [r|m k c IH|m k p c IH|u c IH]; cbn [safe then_f]; intros Hs Hf.
  - apply Hf, Hs.
  - destruct Hs as [Hl Hs]. split; [exact Hl|]. intros o Ho. apply IH; [apply Hs, Ho|exact Hf].
  - destruct Hs as [Hg Hs]. split; [exact Hg|]. apply IH; assumption.
  - intros r Hr. apply IH; [apply Hs, Hr|exact Hf].
Qed.
Lemma safe_bind : forall T U (P : T -> Prop) (Q' : res U -> Prop) t f,
  safe (fun r => match r with Ok a => P a | Raise e => Q' (Raise e) end) t ->
  (forall a, P a -> safe Q' (f a)) -> safe Q' (bind_f t f).
Proof.
  intros T U P Q' t f Ht Hf. unfold bind_f. eapply safe_then; [exact Ht|].
  intros [a|e] H; [apply Hf, H|exact H].
Qed.
Lemma safe_ret : forall T U (r : res T) (Q' : res U -> Prop) f,
  (forall e, Q' (Raise e)) -> (forall a, r = Ok a -> safe Q' (f a)) -> safe Q' (bind_f (FDone r) f).
Proof. intros T U [a|e] Q' f He Hf; [apply (Hf a eq_refl)|apply He]. Qed.
End Safe.

Lemma safe_true : forall T t, safe (fun _ _ => True) (fun _ _ _ => True) (fun _ _ _ => True) (fun _ _ => True)
  (fun _ : res T => True) t.
Proof. intros T t. induction t as [r|m k c IH|m k p c IH|u c IH]; cbn [safe]; auto. Qed.

(** ** Threads that keep to contracts *)
Lemma nth_replace_same' : forall T i (t y : T) l, nth_error l i = Some y ->
  nth_error (replace_nth i t l) i = Some t.
Proof. induction i as [|i IH]; intros t y [|z l] H; cbn in *; try discriminate; [reflexivity|eauto]. Qed.
Lemma nth_replace_other' : forall T i j (t : T) l, i <> j ->
  nth_error (replace_nth i t l) j = nth_error l j.
Proof.
  induction i as [|i IH]; intros [|j] t [|z l] H; cbn; try reflexivity; try congruence. apply IH. lia.
Qed.

Section Pool.
Variable web : list string -> string -> res node.
Variable A : pmap -> option string -> option policybase -> Prop.
Variable F : string -> res node -> Prop.
Variable T : Type.
Variable L : nat -> pmap -> option string -> Prop.
Variable G : nat -> pmap -> option string -> policybase -> Prop.
Variable Q : nat -> res T -> Prop.
Hypothesis HG : forall i m k p, G i m k p -> A m k (Some p).
Hypothesis HF : forall before u, F u (web before u).

Definition reg_ok (s : fstate) : Prop := forall m k, A m k (key_get k (map_at m (fs_reg s))).
Definition pool_ok_f (s : list (FT T) * fstate) : Prop :=
  reg_ok (snd s) /\ forall i t, nth_error (fst s) i = Some t -> safe (L i) A (G i) F (Q i) t.

Lemma safe_step : forall i t s, safe (L i) A (G i) F (Q i) t -> reg_ok s ->
  let '(t', s') := step_f web t s in safe (L i) A (G i) F (Q i) t' /\ reg_ok s'.
Proof.
  intros i [r|m k c|m k p c|u c] s Hs Hr; cbn [safe step_f] in *.
  - split; assumption.
  - split; [apply Hs, Hr|exact Hr].
  - destruct Hs as [Hg Hs]. split; [exact Hs|]. intros m' k'. cbn [fs_reg].
    destruct (name_eq_dec (nm m k) (nm m' k')) as [He|Hne].
    + assert (m' = m /\ k' = k) as [-> ->] by (destruct m, m'; cbn in He; inversion He; split; reflexivity).
      rewrite put_at_same. apply (HG i), Hg.
    + rewrite put_at_other by exact Hne. apply Hr.
  - split; [apply Hs, HF|exact Hr].
Qed.

Lemma pool_step_f : forall i s, pool_ok_f s -> pool_ok_f (schedule_step_f web i s).
Proof.
  intros i [l s] [Hr Hl]. unfold schedule_step_f. cbn [fst snd] in *.
  destruct (nth_error l i) as [t|] eqn:Et; [|split; assumption].
  pose proof (safe_step i t s (Hl i t Et) Hr) as K. destruct (step_f web t s) as [t' s'].
  destruct K as [K1 K2]. split; [exact K2|]. cbn [fst snd]. intros j u Hj.
  destruct (Nat.eq_dec i j) as [<-|Hne].
  - rewrite (nth_replace_same' _ _ _ _ _ Et) in Hj. injection Hj as <-. exact K1.
  - rewrite nth_replace_other' in Hj by exact Hne. apply Hl, Hj.
Qed.
Lemma pool_run_f : forall sched s, pool_ok_f s -> pool_ok_f (run_schedule_f web sched s).
Proof.
  induction sched as [|i sched IH]; intros s H; [exact H|]. cbn [run_schedule_f]. apply IH, pool_step_f, H.
Qed.
End Pool.

(** ** Reading keeps to its contract *)
Lemma inside_trans : forall a b c, inside a b -> inside b c -> inside a c.
Proof.
  intros a b c Hab Hbc. induction Hbc as [|n k Hk Hbk IH]; [exact Hab|]. apply (inside_kid a n k Hk), IH.
Qed.

Section Read.
Variable E : renv.
Hypothesis HE : default_readers E.
Variable fd : finder.
Variable D : node -> Prop.                    (* the documents *)
Variable known : policybase -> Prop.
Variable F : string -> res node -> Prop.
Hypothesis HF : forall base d m r url d', D d -> inside m d -> wanted m <> None ->
  fd = UrlFinder base -> xml_text m = Some r -> make_url base r = Ok url -> F url (Ok d') -> D d'.
Hypothesis HS : forall d m q, D d -> inside m d -> wanted m = None -> doc_means E known m q -> known q.

Definition L0 (m : pmap) (k : option string) : Prop :=
  exists d x, D d /\ inside x d /\ (declared x (nm m k) \/ wanted x = Some (nm m k)).
Definition A0 (m : pmap) (k : option string) (o : option policybase) : Prop :=
  forall p, o = Some p -> name_of p = nm m k /\ known p.
Definition G0 (m : pmap) (k : option string) (p : policybase) : Prop :=
  name_of p = nm m k /\ known p /\ exists d x, D d /\ inside x d /\ declared x (nm m k).

Lemma G0_A0 : forall m k p, G0 m k p -> A0 m k (Some p).
Proof. intros m k p (H1 & H2 & _) q [= <-]. split; assumption. Qed.

Notation ok := (safe L0 A0 G0 F).

Definition here (n : node) : Prop := exists d, D d /\ inside n d.
Lemma here_kid : forall n k, here n -> In k (elems n) -> here k.
Proof.
  intros n k (d & Hd & Hi) Hk. exists d. split; [exact Hd|].
  apply (inside_trans k n d); [|exact Hi]. apply (inside_kid k n k Hk), inside_self.
Qed.

Definition reads_as (n : node) (r : res policybase) : Prop :=
  forall p, r = Ok p -> doc_means E known n p.

Lemma policy_ok : forall n, here n -> ok (reads_as n) (read_policy_t E n).
Proof.
  intros n (d & Hd & Hi). unfold read_policy_t. apply safe_ret; [discriminate|]. intros p Hp.
  apply read_policy_iff in Hp; [|exact HE]. pose proof Hp as Hdoc.
  destruct Hp as (Hc & Hall & id & ai & al & de & xp & t & rs & -> & Hid & Hrest).
  assert (Hw : wanted n = None).
  { pose proof (called_elem _ _ Hc) as He. rewrite wanted_ln by exact He.
    rewrite called_ln in Hc by (reflexivity || exact He). apply String.eqb_eq in Hc. rewrite Hc. reflexivity. }
  assert (Hx : declared n (nm InPolicies (Some id))) by (left; split; [exact Hc|cbn [nm]; congruence]).
  cbn [add_policy_t pm_id bind_f then_f safe]. split.
  - exists d, n. split; [exact Hd|]. split; [exact Hi|left; exact Hx].
  - intros [q|] _; cbn [safe then_f]; [intros ? [=]|]. split.
    + split; [reflexivity|]. split; [|exists d, n; split; [exact Hd|]; split; [exact Hi|exact Hx]].
      apply (HS d n); [exact Hd|exact Hi|exact Hw|]. apply means_policy, Hdoc.
    + intros p [= <-]. apply means_policy, Hdoc.
Qed.

Section Nested.
Variable nested : node -> FT policybase.
Hypothesis HN : forall d, D d -> ok (fun _ => True) (nested d).

Lemma find_ok : forall k m ref, here k -> wanted k = Some (nm m ref) -> xml_text k = ref ->
  ok (reads_as k) (find_t fd nested m ref).
Proof.
  intros k m ref (d & Hd & Hi) Hw Ht.
  assert (Hl : L0 m ref) by (exists d, k; split; [exact Hd|]; split; [exact Hi|right; exact Hw]).
  assert (Hlook : ok (reads_as k) (FLook m ref (fun o => match o with
      | Some p => FDone (Ok p) | None => FDone (Raise EXMLParseError) end))).
  { cbn [safe]. split; [exact Hl|]. intros [p|] Ho; cbn [safe]; [|intros ? [=]].
    intros q [= <-]. destruct (Ho p eq_refl) as [H1 H2]. apply means_reference; [congruence|exact H2]. }
  unfold find_t. remember fd as fd0 eqn:Efd. destruct fd0 as [|base]; [exact Hlook|].
  apply (safe_bind _ _ _ _ _ _ (fun _ => True)); [|intros _ _; exact Hlook].
  cbn [safe]. split; [exact Hl|]. intros [p|] _; cbn [safe]; [exact I|].
  unfold find_from_reference_t. destruct ref as [r|]; [|cbn [safe]; intros ? [=]].
  apply safe_ret; [intros e; intros ? [=]|]. intros url Hu.
  apply (safe_bind _ _ _ _ _ _ D).
  - cbn [safe]. intros [d'|e] Hr; [|intros ? [=]].
    apply (HF base d k r url d' Hd Hi); [congruence|auto|exact Ht|exact Hu|exact Hr].
  - intros d' Hd'. apply (safe_bind _ _ _ _ _ _ (fun _ => True)); [|intros _ _; exact I].
    eapply safe_weaken; [|apply HN, Hd']. intros [p|e] _; [exact I|intros ? [=]].
Qed.

(** The children of a policy set element read so far. *)
Definition acc_ok (done : list node) (a : sacc) : Prop :=
  (forall c, In c done -> called_one_of SET_NAMES c) /\
  sc_description a = descr done /\
  last_one (target_doc E) (filter (called "Target") done) (sc_target a) /\
  Forall2 (doc_means E known) (filter is_member done) (sc_policies a).

Ltac case_name n s := destruct (String.eqb_spec (ln n) s) as [?Hn|?Hn].

Lemma acc_member : forall done a k p, acc_ok done a -> is_elem k ->
  ln k = "Policy" \/ ln k = "PolicySet" \/ ln k = "PolicyIdReference" \/ ln k = "PolicySetIdReference" ->
  doc_means E known k p -> acc_ok (done ++ [k]) (sacc_add a p).
Proof.
  intros done a k p (H1 & H2 & H3 & H4) He Hn Hp. unfold acc_ok. rewrite one_of_snoc, (one_of_ln _ k He) by reflexivity.
  rewrite descr_snoc by exact He. rewrite !filter_snoc, member_at by exact He.
  rewrite (called_ln "Target" k eq_refl He).
  destruct Hn as [Hn|[Hn|[Hn|Hn]]]; rewrite Hn; cbn [String.eqb Ascii.eqb Bool.eqb orb];
    (split; [split; [exact H1|cbn; tauto]|]); (split; [exact H2|]); (split; [exact H3|]);
    apply Forall2_app; auto.
Qed.

Lemma set_ok : forall n, is_elem n -> here n -> ok (reads_as n) (read_set_t E fd nested n).
Proof.
  induction n as [t|tag attrs text kids IH] using node_ind'; intros He Hh; [destruct He|].
  cbn [read_set_t]. set (n := Elem tag attrs text kids) in *.
  destruct (negb (String.eqb (get_local_part tag) "PolicySet")) eqn:Etag; [intros ? [=]|].
  assert (Hln : ln n = "PolicySet") by (apply String.eqb_eq, Bool.negb_false_iff, Etag).
  assert (Hc : called "PolicySet" n = true) by (rewrite called_ln by (reflexivity || exact He); apply String.eqb_eq, Hln).
  assert (Hw : wanted n = None) by (rewrite wanted_ln by exact He; rewrite Hln; reflexivity).
  apply safe_ret; [discriminate|]. intros id Hid. apply required_ok in Hid.
  apply safe_ret; [discriminate|]. intros ai Hai. apply required_ok in Hai.
  apply safe_ret; [discriminate|]. intros alg Halg. apply policy_alg_of_iff in Halg.
  apply (safe_bind _ _ _ _ _ _ (acc_ok (elems n))).
  - assert (Hks : forall k, In k (elems n) -> is_elem k /\ here k /\
      (ok (reads_as k) (read_set_t E fd nested k))).
    { intros k Hk. assert (is_elem k) as Hek by exact (elems_is n k Hk).
      assert (here k) as Hhk by exact (here_kid n k Hh Hk).
      split; [exact Hek|]. split; [exact Hhk|]. rewrite Forall_forall in IH. apply IH; [|exact Hek|exact Hhk].
      apply filter_In in Hk. apply Hk. }
    change (elems n) with ([] ++ elements kids). change (elems n) with (elements kids) in Hks.
    clear IH. clearbody n. clear He Hh Etag Hln Hc Hw Hid Hai Halg.
    assert (H0 : acc_ok [] (mkSacc None None [])).
    { split; [intros c []|]. split; [reflexivity|]. split; [apply last_one_nil; reflexivity|constructor]. }
    revert H0. generalize (mkSacc None None []). generalize (@nil node) as done.
    induction kids as [|k rest IHr]; intros done a Ha.
    { cbn [elements filter]. rewrite app_nil_r. exact Ha. }
    destruct k as [t a' x ks|t]; [|apply (IHr Hks); exact Ha].
    change (elements (Elem t a' x ks :: rest)) with (Elem t a' x ks :: elements rest) in *.
    set (k := Elem t a' x ks) in *.
    destruct (Hks k (or_introl eq_refl)) as (Hek & Hhk & Hsk).
    assert (Hlk : get_local_part t = ln k) by reflexivity.
    replace (done ++ k :: elements rest) with ((done ++ [k]) ++ elements rest) by (rewrite <- app_assoc; reflexivity).
    apply (safe_bind _ _ _ _ _ _ (acc_ok (done ++ [k]))).
    2:{ intros a1 Ha1. apply IHr; [|exact Ha1]. intros k' Hk'. apply Hks. right. exact Hk'. }
    clear IHr Hks. rewrite Hlk. clear Hlk. clearbody k.
    assert (Hmem : ln k = "Policy" \/ ln k = "PolicySet" \/ ln k = "PolicyIdReference" \/ ln k = "PolicySetIdReference" ->
      forall prog, ok (reads_as k) prog ->
      ok (fun r => match r with Ok b => acc_ok (done ++ [k]) b | Raise _ => True end)
         (let? p := prog in FDone (Ok (sacc_add a p)))).
    { intros Hn prog Hp. apply (safe_bind _ _ _ _ _ _ (doc_means E known k)).
      - eapply safe_weaken; [|exact Hp]. intros [p|e] H; [apply H; reflexivity|exact I].
      - intros p Hpm. cbn [safe]. apply acc_member; assumption. }
    assert (Hsub : forall prog,
      ok (fun r => match r with Ok b => acc_ok (done ++ [k]) b | Raise _ => True end) prog ->
      ok (fun r => match r with Ok b => acc_ok (done ++ [k]) b
                   | Raise e => match @Raise sacc e with Ok b => acc_ok (done ++ elements rest) b | Raise _ => True end end) prog).
    { intros prog H. eapply safe_weaken; [|exact H]. intros [b|e]; auto. }
    match goal with |- safe _ _ _ _ ?Q _ =>
      assert (HQ : forall r, (match r with Ok b => acc_ok (done ++ [k]) b | Raise _ => True end) -> Q r)
        by (intros [b|e] H; [exact H|try exact I; intros ? [=]])
    end.
    eapply safe_weaken; [exact HQ|]. clear HQ Hsub.
    case_name k "Description".
    { cbn [safe]. destruct Ha as (H1 & H2 & H3 & H4). unfold acc_ok.
      rewrite one_of_snoc, (one_of_ln _ k Hek) by reflexivity.
      rewrite descr_snoc by exact Hek. rewrite !filter_snoc, member_at by exact Hek.
      rewrite (called_ln "Target" k eq_refl Hek), Hn. cbn [String.eqb Ascii.eqb Bool.eqb orb sc_description sc_target sc_policies].
      rewrite H2. split; [split; [exact H1|cbn; tauto]|]. split; [reflexivity|]. split; assumption. }
    case_name k "PolicySetDefaults"; [destruct (read_defaults k); exact I|].
    case_name k "Target".
    { cbn [safe]. destruct (read_target E k) as [tg|e] eqn:Et; [|exact I]. cbn [bind].
      apply read_target_iff in Et; [|exact HE]. destruct Ha as (H1 & H2 & H3 & H4). unfold acc_ok.
      rewrite one_of_snoc, (one_of_ln _ k Hek) by reflexivity.
      rewrite descr_snoc by exact Hek. rewrite !filter_snoc, member_at by exact Hek.
      rewrite (called_ln "Target" k eq_refl Hek), Hn1. cbn [String.eqb Ascii.eqb Bool.eqb orb sc_description sc_target sc_policies].
      split; [split; [exact H1|cbn; tauto]|]. split; [exact H2|]. split; [|exact H4].
      apply last_one_snoc. split; [exists (sc_target a); exact H3|]. exists tg. split; [reflexivity|exact Et]. }
    case_name k "CombinerParameters"; [exact I|].
    case_name k "PolicyCombinerParameters"; [exact I|].
    case_name k "PolicySetCombinerParameters"; [exact I|].
    case_name k "VariableDefinition"; [exact I|].
    assert (Htx := text_get k Hek).
    case_name k "Policy"; [apply Hmem; [tauto|apply policy_ok, Hhk]|].
    case_name k "PolicyIdReference".
    { apply Hmem; [tauto|]. rewrite Htx. apply find_ok; [exact Hhk|rewrite (wanted_ln k Hek), Hn7; reflexivity|reflexivity]. }
    case_name k "PolicySet"; [apply Hmem; [tauto|exact Hsk]|].
    case_name k "PolicySetIdReference".
    { apply Hmem; [tauto|]. rewrite Htx. apply find_ok; [exact Hhk|rewrite (wanted_ln k Hek), Hn9; reflexivity|reflexivity]. }
    case_name k "Obligations"; exact I.
  - intros a (H1 & H2 & H3 & H4). cbv zeta.
    set (p := PPolicySet _ _ _ _).
    assert (Hp : doc_means E known n p).
    { unfold p. rewrite version_eq. apply means_set; try assumption. apply description_iff, H2. }
    destruct Hh as (d & Hd & Hi).
    assert (Hx : declared n (nm InSets (Some id))) by (right; split; [exact Hc|cbn [nm]; congruence]).
    assert (Hnm : name_of p = nm InSets (Some id)) by reflexivity.
    change (add_policy_set_t p) with (FLook InSets (Some id) (fun o => match o with
      | Some _ => FDone (Raise EXMLParseError) | None => FPut InSets (Some id) p (FDone (Ok tt)) end)).
    clearbody p. cbn [bind_f then_f safe]. split.
    + exists d, n. split; [exact Hd|]. split; [exact Hi|left; exact Hx].
    + intros [q|] _; cbn [safe then_f]; [intros ? [=]|]. split.
      * split; [exact Hnm|]. split; [exact (HS d n p Hd Hi Hw Hp)|].
        exists d, n. split; [exact Hd|]. split; [exact Hi|exact Hx].
      * intros q [= <-]. exact Hp.
Qed.
End Nested.

Lemma doc_ok : forall limit n, D n -> ok (reads_as n) (read_doc_t limit E fd n).
Proof.
  induction limit as [|limit IH]; intros n Hn; cbn [read_doc_t]; [intros ? [=]|].
  assert (here n) as Hh by (exists n; split; [exact Hn|apply inside_self]).
  apply safe_ret; [discriminate|]. intros l Hl.
  assert (is_elem n) as He by (destruct n; [exact I|discriminate Hl]).
  destruct (String.eqb l "Policy"); [apply policy_ok, Hh|].
  destruct (String.eqb l "PolicySet"); [|intros ? [=]].
  apply set_ok; [|exact He|exact Hh]. intros d Hd. eapply safe_weaken; [|apply IH, Hd]. auto.
Qed.

Lemma loads_ok_t : forall limit docs, (forall d, In d docs -> D d) ->
  ok (fun r => exists rs, r = Ok rs /\ Forall2 reads_as docs rs) (loads_t limit E fd docs).
Proof.
  intros limit. induction docs as [|d docs IH]; intros Hd; cbn [loads_t].
  - exists []. split; [reflexivity|constructor].
  - eapply safe_then; [apply doc_ok, Hd; left; reflexivity|]. intros r Hr.
    apply (safe_bind _ _ _ _ _ _ (fun rs => Forall2 reads_as docs rs)).
    + eapply safe_weaken; [|apply IH; intros d' Hd'; apply Hd; right; exact Hd'].
      intros r' (rs & -> & H). exact H.
    + intros rs Hrs. cbn [safe]. exists (r :: rs). split; [reflexivity|constructor; assumption].
Qed.
End Read.
