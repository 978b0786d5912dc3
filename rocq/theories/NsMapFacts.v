(** Lemmas about the namespace prefixes of the process. *)
From Verif Require Import NsMap SpecNsMap SpecPretty PrettyFacts.
From Coq Require Import Lia.

Lemma prefix_get : forall m u, prefix_for m u = dict_get u m.
Proof.
  induction m as [|[k v] m IH]; intros u; cbn [prefix_for dict_get]; [reflexivity|].
  rewrite String.eqb_sym, IH. reflexivity.
Qed.
Lemma prefix_set : forall m u p v,
  prefix_for (dict_set u p m) v = if String.eqb u v then Some p else prefix_for m v.
Proof.
  intros m u p v. rewrite !prefix_get. destruct (String.eqb u v) eqn:E.
  - apply String.eqb_eq in E. subst v. apply get_set_same.
  - apply String.eqb_neq in E. apply get_set_other. congruence.
Qed.

Lemma put_length : forall i d l, length (put_dict i d l) = length l.
Proof. induction i; destruct l; cbn; auto. Qed.
Lemma put_same : forall i d l, i < length l -> nth i (put_dict i d l) [] = d.
Proof. induction i; destruct l; cbn; intros H; try lia; auto. apply IHi. lia. Qed.
Lemma put_other : forall i j d l, i <> j -> nth j (put_dict i d l) [] = nth j l [].
Proof. induction i; destruct l, j; cbn; intros H; try congruence; auto. Qed.

(** ** What happens to one dict *)
Definition changed (o : nsop) (d : nsdict) : nsdict :=
  match o with
  | NMark => dict_set "" POLICY_NS d
  | NSet u p => dict_set u p d
  | NPrint indent space e => ps_map (snd (print_elem false indent space [] e (mkPstate d (map snd d))))
  | NUser f => f d
  | _ => d
  end.

Definition good (P : nsdict -> Prop) (w : nsworld) : Prop :=
  ns_current w < length (ns_dicts w) /\ P (ns_map w) /\
  forall r i, lookup_nat r (ns_backups w) = Some i -> i < length (ns_dicts w) /\ P (dict_at w i).

Lemma change_good : forall P f w, good P w -> P (f (ns_map w)) -> good P (change_current f w).
Proof.
  intros P f w (H1 & H2 & H3) Hf. unfold good, change_current, ns_map, dict_at in *.
  cbn [ns_dicts ns_current ns_backups]. rewrite put_length. split; [exact H1|]. split.
  - rewrite put_same by exact H1. exact Hf.
  - intros r i Hi. destruct (H3 r i Hi) as [A B]. split; [exact A|].
    destruct (Nat.eq_dec (ns_current w) i) as [E|E].
    + rewrite <- E, put_same by exact H1. exact Hf.
    + rewrite put_other by exact E. exact B.
Qed.

Lemma copy_good : forall P w, good P w -> good P (snd (copy_current w)) /\
  fst (copy_current w) < length (ns_dicts (snd (copy_current w))) /\
  dict_at (snd (copy_current w)) (fst (copy_current w)) = ns_map w /\
  ns_map (snd (copy_current w)) = ns_map w.
Proof.
  intros P w (H1 & H2 & H3). unfold good, copy_current, ns_map, dict_at in *.
  cbn [ns_dicts ns_current ns_backups fst snd]. rewrite app_length. cbn [length].
  assert (A : forall i, i < length (ns_dicts w) ->
              nth i (ns_dicts w ++ [nth (ns_current w) (ns_dicts w) []])%list [] = nth i (ns_dicts w) []).
  { intros i Hi. apply app_nth1, Hi. }
  rewrite (A _ H1). split; [|split; [lia|split; [|reflexivity]]].
  - split; [lia|]. split; [exact H2|]. intros r i Hi. destruct (H3 r i Hi) as [B C].
    rewrite (A _ B). split; [lia|exact C].
  - rewrite app_nth2 by lia. rewrite Nat.sub_diag. reflexivity.
Qed.

Lemma step_good : forall (P : nsdict -> Prop) o w, (forall d, P d -> P (changed o d)) -> good P w -> good P (ns_step false o w).
Proof.
  intros P o w Hc Hg. pose proof Hg as (H1 & H2 & H3).
  destruct (copy_good P w Hg) as (G & G1 & G2 & G3).
  destruct o as [r| |r|u p|ind sp e|f]; cbn [ns_step].
  - destruct (copy_current w) as [i w1]. cbn [fst snd] in *.
    pose proof G as (K1 & K2 & K3). split; [exact K1|]. split; [exact K2|].
    intros r' j. cbn [ns_backups lookup_nat ns_dicts]. destruct (Nat.eqb r r').
    + intros E. assert (j = i) as -> by congruence. split; [exact G1|]. unfold dict_at in *.
      cbn [ns_dicts]. rewrite G2. exact H2.
    + apply K3.
  - apply change_good; [exact Hg|apply (Hc _ H2)].
  - destruct (lookup_nat r (ns_backups w)) as [i|] eqn:E; [|exact Hg].
    destruct (H3 r i E) as [A B]. split; [exact A|]. split; [exact B|exact H3].
  - apply change_good; [exact Hg|apply (Hc _ H2)].
  - change (dict_at w (ns_current w)) with (ns_map w).
    specialize (Hc _ H2). cbn [changed] in Hc.
    destruct (copy_current w) as [i w1]. cbn [fst snd] in *.
    destruct (print_elem _ _ _ _ _ _) as [r st]. cbn [snd] in Hc.
    assert (C : good P (change_current (fun _ => ps_map st) w1)) by (apply change_good; assumption).
    destruct r; [|exact C].
    destruct C as (C1 & C2 & C3). split; [cbn; rewrite put_length; exact G1|]. split; [|exact C3].
    unfold ns_map, dict_at, change_current in *. cbn [ns_current ns_dicts] in *.
    destruct (Nat.eq_dec (ns_current w1) i) as [E|E].
    + rewrite <- E, put_same by apply G. exact Hc.
    + rewrite put_other by exact E. rewrite G2. exact H2.
  - apply change_good; [exact Hg|apply (Hc _ H2)].
Qed.

Lemma run_good : forall (P : nsdict -> Prop) h w, (forall o d, In o h -> P d -> P (changed o d)) -> good P w ->
  good P (ns_run false h w).
Proof.
  intros P h. induction h as [|o h IH]; intros w Hc Hg; cbn [ns_run]; [exact Hg|].
  apply IH; [intros o' d Ho; apply Hc; right; exact Ho|].
  apply step_good; [|exact Hg]. intros d. apply Hc. left. reflexivity.
Qed.

Lemma quiet_good : forall (P : nsdict -> Prop) w, quiet w -> P (ns_map w) -> good P w.
Proof.
  intros P w [H1 H2] H. split; [exact H1|]. split; [exact H|]. rewrite H2. discriminate.
Qed.

(** ** What printing enters *)
Definition enters (Q : string -> string -> Prop) {A} (x : PP A) : Prop :=
  forall st u p, dict_get u (ps_map (snd (x st))) = Some p -> dict_get u (ps_map st) = Some p \/ Q u p.

Section Enters.
  Variable Q : string -> string -> Prop.
  Lemma enters_bind : forall A B (x : PP A) (f : A -> PP B), enters Q x -> (forall a, enters Q (f a)) ->
    enters Q (bind_p x f).
  Proof.
    intros A B x f Hx Hf st u p. unfold bind_p. specialize (Hx st u p).
    destruct (x st) as [[a|y] st1]; cbn [snd] in *; [|exact Hx].
    intros H. apply Hf in H. destruct H as [H|H]; auto.
  Qed.
  Lemma enters_ret : forall A (a : A), enters Q (ret_p a).
  Proof. intros A a st u p H. left. exact H. Qed.
  Lemma enters_raise : forall A y, enters Q (@raise_p A y).
  Proof. intros A a st u p H. left. exact H. Qed.
  Lemma enters_alloc : forall ns, (forall p, made_up p -> Q ns p) -> enters Q (alloc_prefix ns).
  Proof.
    intros ns HQ st u p. unfold alloc_prefix.
    destruct (dict_get ns (ps_map st)) as [q|] eqn:E; [auto|].
    destruct (find _ _) as [q|] eqn:F; [|auto]. cbn [snd ps_map].
    destruct (string_dec u ns) as [->|N].
    - rewrite get_set_same. intros H. right. assert (p = q) as -> by congruence.
      apply find_some in F. destruct F as [F _]. apply in_map_iff in F. destruct F as (i & <- & F).
      apply in_seq in F. apply HQ. exists i. split; [exact (proj2 F)|reflexivity].
    - rewrite get_set_other by exact N. auto.
  Qed.
  Lemma enters_attrs : forall ns attrs declared,
    (forall a v, In (a, v) attrs -> get_ns a <> "" -> forall p, made_up p -> Q (get_ns a) p) ->
    enters Q (print_attrs false ns declared attrs).
  Proof.
    intros ns. induction attrs as [|[a v] attrs IH]; intros declared HQ; cbn [print_attrs]; [apply enters_ret|].
    apply enters_bind.
    - destruct (String.eqb (get_ns a) "") eqn:E; [apply enters_ret|].
      apply enters_bind.
      + apply enters_alloc. apply (HQ a v); [left; reflexivity|]. apply String.eqb_neq, E.
      + intros p. destruct (str_in (get_ns a) declared); apply enters_ret.
    - intros [[decl name] declared1]. apply enters_bind; [|intros [t d]; apply enters_ret].
      apply IH. intros a' v' H. apply (HQ a' v'). right. exact H.
  Qed.
End Enters.

Lemma enters_elem : forall e indent space declared,
  enters (fun u p => made_up p /\ In u (namespaces e)) (print_elem false indent space declared e).
Proof.
  intros e. induction e as [tag attrs ns text tail kids IH|text tail] using pnode_ind';
    intros indent space declared; cbn [print_elem]; [|apply enters_raise].
  set (Q := fun u p => made_up p /\ In u (namespaces (PElem tag attrs ns text tail kids))).
  assert (K : forall ind sp d indent tag last,
    enters Q (print_children (print_elem false ind sp d) indent tag last kids)).
  { assert (L : Forall (fun k => forall indent space declared,
                  enters Q (print_elem false indent space declared k)) kids).
    { rewrite Forall_forall in *. intros k Hk ind sp d st u p H.
      destruct (IH k Hk ind sp d st u p H) as [H'|[H1 H2]]; [left; exact H'|right].
      split; [exact H1|]. cbn [namespaces]. right. apply in_or_app. right.
      apply in_flat_map. exists k. auto. }
    clear IH. clearbody Q. induction L as [|k kids Hk IH IH2]; intros ind sp d indent' tag' last;
      cbn [print_children]; [apply enters_ret|].
    apply enters_bind; [apply Hk|]. intros t. apply enters_bind; [apply IH2|]. intros t2. apply enters_ret. }
  apply enters_bind.
  - apply enters_attrs. intros a v Ha Hn p Hp. split; [exact Hp|]. cbn [namespaces]. right.
    apply in_or_app. left. apply filter_In. split.
    + apply in_map_iff. exists (a, v). split; [reflexivity|exact Ha].
    + apply Bool.negb_true_iff, String.eqb_neq, Hn.
  - intros [sa d1]. apply enters_bind.
    + apply enters_alloc. intros p Hp. split; [exact Hp|]. cbn [namespaces]. left. reflexivity.
    + intros p. destruct kids; [apply enters_ret|]. apply enters_bind; [apply K|]. intros t. apply enters_ret.
Qed.

(** ** A dict that nobody uses meanwhile *)
Definition aside (k : nat) (w : nsworld) : Prop :=
  ns_current w < length (ns_dicts w) /\ k < length (ns_dicts w) /\ k <> ns_current w.

Lemma change_aside : forall k f w, aside k w ->
  aside k (change_current f w) /\ dict_at (change_current f w) k = dict_at w k.
Proof.
  intros k f w (H1 & H2 & H3). unfold aside, change_current, dict_at. cbn [ns_dicts ns_current].
  rewrite put_length, put_other by congruence. auto.
Qed.
Lemma copy_aside : forall k w, aside k w ->
  aside k (snd (copy_current w)) /\ dict_at (snd (copy_current w)) k = dict_at w k /\
  k < fst (copy_current w) < length (ns_dicts (snd (copy_current w))).
Proof.
  intros k w (H1 & H2 & H3). unfold aside, copy_current, dict_at. cbn [fst snd ns_dicts ns_current].
  rewrite app_length, app_nth1 by exact H2. cbn [length].
  repeat match goal with |- _ /\ _ => split end; try reflexivity; try exact H3; lia.
Qed.
Lemma plain_aside : forall k o w, plain o -> aside k w ->
  aside k (ns_step false o w) /\ dict_at (ns_step false o w) k = dict_at w k /\
  ns_backups (ns_step false o w) = ns_backups w.
Proof.
  intros k o w Hp Ha. destruct o as [r| |r|u p|ind sp e|f]; cbn [plain] in Hp; try contradiction; cbn [ns_step].
  - destruct (change_aside k (dict_set u p) w Ha). auto.
  - destruct (copy_aside k w Ha) as (A & B & C & D).
    assert (X : ns_backups (snd (copy_current w)) = ns_backups w) by reflexivity.
    destruct (copy_current w) as [i w1]. cbn [fst snd] in *.
    destruct (print_elem _ _ _ _ _ _) as [r st].
    destruct (change_aside k (fun _ => ps_map st) w1 A) as [E F].
    destruct r; [|split; [exact E|split; [congruence|exact X]]].
    split; [|split; [unfold dict_at in *; cbn [ns_dicts] in *; congruence|exact X]].
    destruct E as (E1 & E2 & E3). split; [cbn; rewrite put_length; exact D|]. split; [exact E2|].
    cbn [ns_current]. lia.
  - destruct (change_aside k f w Ha). auto.
Qed.

(** Creation of a reader *)
Lemma new_reader : forall r w, ns_current w < length (ns_dicts w) ->
  let w1 := ns_run false [NBackup r; NMark] w in
  let i := length (ns_dicts w) in
  aside i w1 /\ dict_at w1 i = ns_map w /\ ns_backups w1 = (r, i) :: ns_backups w /\
  forall k, aside k w -> aside k w1 /\ dict_at w1 k = dict_at w k.
Proof.
  intros r w H. cbv zeta. cbn [ns_run ns_step copy_current].
  set (w' := mkNs _ _ _).
  assert (A : aside (length (ns_dicts w)) w').
  { unfold aside, w'. cbn [ns_dicts ns_current]. rewrite app_length. cbn [length]. lia. }
  destruct (change_aside _ (dict_set "" POLICY_NS) w' A) as [B C].
  split; [exact B|]. split; [|split; [reflexivity|]].
  - rewrite C. unfold dict_at, w', ns_map, dict_at. cbn [ns_dicts]. rewrite app_nth2 by lia.
    rewrite Nat.sub_diag. reflexivity.
  - intros k Hk. assert (K : aside k w' /\ dict_at w' k = dict_at w k).
    { destruct Hk as (K1 & K2 & K3). unfold aside, dict_at, w'. cbn [ns_dicts ns_current].
      rewrite app_length, app_nth1 by exact K2. cbn [length].
      repeat match goal with |- _ /\ _ => split end; try reflexivity; try exact K3; lia. }
    destruct K as [K1 K2]. destruct (change_aside _ (dict_set "" POLICY_NS) w' K1) as [K3 K4].
    split; [exact K3|congruence].
Qed.

Lemma run_app : forall lxml a b w, ns_run lxml (a ++ b) w = ns_run lxml b (ns_run lxml a w).
Proof. intros lxml. induction a as [|o a IH]; intros b w; cbn [ns_run app]; [reflexivity|apply IH]. Qed.

Lemma life_eq : forall r body, life r body = ([NBackup r; NMark] ++ body ++ [NRestore r])%list.
Proof. reflexivity. Qed.

(** One life, given what the body does *)
Lemma life_step : forall r body w, ns_current w < length (ns_dicts w) ->
  (forall k v, aside k v -> aside k (ns_run false body v) /\ dict_at (ns_run false body v) k = dict_at v k /\
     lookup_nat r (ns_backups (ns_run false body v)) = lookup_nat r (ns_backups v)) ->
  let w' := ns_run false (life r body) w in
  ns_current w' < length (ns_dicts w') /\ ns_map w' = ns_map w /\
  ns_current w' = length (ns_dicts w) /\
  ns_backups w' = ns_backups (ns_run false body (ns_run false [NBackup r; NMark] w)) /\
  (forall k, aside k w -> aside k w' /\ dict_at w' k = dict_at w k).
Proof.
  intros r body w H Hb. cbv zeta. rewrite life_eq, !run_app.
  destruct (new_reader r w H) as (A & B & C & D). cbv zeta in *.
  set (w1 := ns_run false [NBackup r; NMark] w) in *. clearbody w1.
  destruct (Hb _ _ A) as (E & F & G).
  assert (K : forall k, aside k w -> aside k (ns_run false body w1) /\ dict_at (ns_run false body w1) k = dict_at w k).
  { intros k Hk. destruct (D k Hk) as [D1 D2]. destruct (Hb _ _ D1) as (D3 & D4 & _). split; [exact D3|congruence]. }
  set (w2 := ns_run false body w1) in *. clearbody w2.
  rewrite C in G. cbn [lookup_nat] in G. rewrite Nat.eqb_refl in G.
  cbn [ns_run ns_step]. rewrite G. cbn [ns_current ns_dicts ns_backups]. destruct E as (E1 & E2 & E3).
  split; [exact E2|]. split; [unfold ns_map at 1; unfold dict_at in *; cbn [ns_current ns_dicts]; congruence|].
  split; [reflexivity|]. split; [reflexivity|].
  intros k Hk. destruct (K k Hk) as [(K1 & K2 & K3) K4]. split; [|exact K4].
  split; [exact E2|]. split; [exact K2|]. cbn [ns_current]. destruct Hk as (_ & Hk & _). lia.
Qed.

Lemma nested_aside : forall h, nested h -> forall k w, aside k w ->
  aside k (ns_run false h w) /\ dict_at (ns_run false h w) k = dict_at w k /\
  forall r, ~ In (NBackup r) h ->
    lookup_nat r (ns_backups (ns_run false h w)) = lookup_nat r (ns_backups w).
Proof.
  intros h Hn. induction Hn as [|o rest Hp Hn IH|r body rest Hb IHb Hr Hn IH]; intros k w Ha.
  - auto.
  - cbn [ns_run]. destruct (plain_aside k o w Hp Ha) as (A & B & C).
    destruct (IH k _ A) as (D & E & F). split; [exact D|]. split; [congruence|].
    intros r H. rewrite F, C; [reflexivity|]. intros K. apply H. right. exact K.
  - rewrite run_app. destruct (life_step r body w) as (A & B & C & D & E).
    + apply Ha.
    + intros k' v Hv. destruct (IHb k' v Hv) as (X & Y & Z). auto.
    + cbv zeta in *. destruct (E k Ha) as [E1 E2]. destruct (IH k _ E1) as (F & G & I).
      split; [exact F|]. split; [congruence|]. intros r' Hr'.
      assert (N1 : ~ In (NBackup r') rest) by (intros K; apply Hr'; apply in_or_app; right; exact K).
      assert (N2 : ~ In (NBackup r') (life r body)) by (intros K; apply Hr'; apply in_or_app; left; exact K).
      rewrite (I r' N1), D. rewrite life_eq in N2.
      destruct (new_reader r w) as (A1 & _ & C1 & _); [apply Ha|]. cbv zeta in *.
      destruct (IHb _ _ A1) as (_ & _ & J). rewrite (J r').
      * rewrite C1. cbn [lookup_nat]. destruct (Nat.eqb r r') eqn:Q; [|reflexivity].
        apply Nat.eqb_eq in Q. exfalso. apply N2. left. congruence.
      * intros K. apply N2. apply in_or_app. right. apply in_or_app. left. exact K.
Qed.

Lemma life_undone : forall r body w, nested body -> ~ In (NBackup r) body ->
  ns_current w < length (ns_dicts w) ->
  ns_map (ns_run false (life r body) w) = ns_map w /\
  ns_current (ns_run false (life r body) w) < length (ns_dicts (ns_run false (life r body) w)).
Proof.
  intros r body w Hn Hr Hc. destruct (life_step r body w Hc) as (A & B & _).
  - intros k v Hv. destruct (nested_aside body Hn k v Hv) as (X & Y & Z). auto.
  - split; [exact B|exact A].
Qed.

Lemma print_kept : forall indent space e text w, ns_current w < length (ns_dicts w) ->
  fst (pretty_print false (ns_map w) indent space e) = Ok text ->
  ns_map (ns_step false (NPrint indent space e) w) = ns_map w /\
  ns_current (ns_step false (NPrint indent space e) w) < length (ns_dicts (ns_step false (NPrint indent space e) w)).
Proof.
  intros indent space e text w Hc. unfold pretty_print. cbn [ns_step copy_current].
  change (dict_at w (ns_current w)) with (ns_map w).
  destruct (print_elem _ _ _ _ _ _) as [[t|y] st]; [|discriminate]. intros _.
  unfold ns_map at 1. unfold change_current, dict_at at 1. cbn [ns_current ns_dicts].
  rewrite put_length, put_other, app_length, app_nth2 by lia. rewrite Nat.sub_diag. cbn [length nth].
  split; [reflexivity|lia].
Qed.

Lemma sequential_given : forall w h given, sequential w h given -> ns_current w < length (ns_dicts w) ->
  forall u, prefix_for (ns_map (ns_run false h w)) u = last_given given u (prefix_for (ns_map w) u).
Proof.
  intros w h given Hs. induction Hs as [w|w r body rest given Hb Hr Hs IH|w ind sp e text rest given Hp Hs IH
    |w u p rest given Hs IH]; intros Hc v.
  - reflexivity.
  - rewrite run_app. destruct (life_undone r body w Hb Hr Hc) as [A B]. rewrite (IH B), A. reflexivity.
  - destruct (print_kept ind sp e text w Hc Hp) as [A B]. cbn [ns_run]. rewrite (IH B), A. reflexivity.
  - cbn [ns_run last_given]. assert (A : ns_map (ns_step false (NSet u p) w) = dict_set u p (ns_map w)).
    { cbn [ns_step]. unfold ns_map, change_current, dict_at. cbn [ns_current ns_dicts]. apply put_same, Hc. }
    rewrite IH, A, prefix_set; [reflexivity|]. cbn. rewrite put_length. exact Hc.
Qed.
