(** Lemmas about loading policies: the reader with state on failure agrees with the
    reader of Readers.v, and keeps what the finder holds. *)
From Verif Require Import Sources SpecRead SpecSources ReadFacts ReadFacts3 ReadFacts4.

(** ** Agreement *)
Definition agree {A} (m : SM A) (r : fstate -> res (A * fstate)) : Prop :=
  forall st, match r st with
             | Ok (a, st') => m st = (Ok a, st')
             | Raise e => fst (m st) = Raise e
             end.

Lemma agree_lift : forall A (r : res A), agree (slift r) (fun st => let* a := r in Ok (a, st)).
Proof. intros A [a|e] st; reflexivity. Qed.
Lemma agree_raise : forall A e, agree (slift (@Raise A e)) (fun _ => Raise e).
Proof. intros A e st. reflexivity. Qed.
Lemma agree_bind : forall A B (m : SM A) r (f : A -> SM B) g,
  agree m r -> (forall a, agree (f a) (g a)) ->
  agree (sbind m f) (fun st => let* (a, st') := r st in g a st').
Proof.
  intros A B m r f g Hm Hf st. specialize (Hm st). unfold sbind.
  destruct (r st) as [[a st']|e]; cbn [bind].
  - rewrite Hm. apply Hf.
  - destruct (m st) as [[a|e'] st1]; cbn in Hm; [discriminate Hm|]. injection Hm as ->. reflexivity.
Qed.
Lemma agree_bind_lift : forall A B (r : res A) (f : A -> SM B) g,
  (forall a, agree (f a) (g a)) -> agree (sbind (slift r) f) (fun st => let* a := r in g a st).
Proof. intros A B [a|e] f g Hf st; [apply Hf|reflexivity]. Qed.

Section Agree.
Variable E : renv.
Variable fetch : string -> res node.
Variable fd : finder.

Lemma agree_policy : forall n, agree (read_policy_s E n) (read_policy_reg E n).
Proof.
  intros n. apply agree_bind_lift. intros p st. unfold sbind, register_s, slift.
  destruct (add_policy (fs_reg st) p); reflexivity.
Qed.

Section Nested.
Variable nested_s : node -> SM policybase.
Variable nested : node -> fstate -> res (policybase * fstate).
Hypothesis HN : forall n, agree (nested_s n) (nested n).

Lemma agree_from_reference : forall base ref,
  agree (find_from_reference_s fetch nested_s base ref)
    (fun st => let* st1 := find_from_reference fetch nested base ref st in Ok (tt, st1)).
Proof.
  intros base [r|] st; [|reflexivity]. cbn [find_from_reference find_from_reference_s].
  unfold sbind, slift. destruct (make_url base r) as [url|e]; [|reflexivity]. cbn [bind].
  destruct (fetch url) as [d|e]; [|reflexivity]. cbn [bind].
  specialize (HN d (mkFstate (fs_reg st) (fs_fetched st ++ [url]))).
  destruct (nested d (mkFstate (fs_reg st) (fs_fetched st ++ [url]))) as [[p st2]|e]; cbn [bind].
  - rewrite HN. reflexivity.
  - destruct (nested_s d (mkFstate (fs_reg st) (fs_fetched st ++ [url]))) as [[p|e'] st2];
      cbn in HN; [discriminate HN|]. injection HN as ->. reflexivity.
Qed.

Lemma agree_find_gen : forall map_of ref,
  agree (find_s fetch fd nested_s map_of ref)
    (fun st => match fd with
     | LocalFinder =>
         match key_get ref (map_of (fs_reg st)) with
         | Some p => Ok (p, st)
         | None => Raise EXMLParseError
         end
     | UrlFinder base =>
         let* st1 := match key_get ref (map_of (fs_reg st)) with
                     | Some _ => Ok st
                     | None => find_from_reference fetch nested base ref st
                     end in
         match key_get ref (map_of (fs_reg st1)) with
         | Some p => Ok (p, st1)
         | None => Raise EXMLParseError
         end
     end).
Proof.
  intros map_of ref st. unfold find_s. destruct fd as [|base].
  - destruct (key_get ref (map_of (fs_reg st))); reflexivity.
  - unfold sbind. destruct (key_get ref (map_of (fs_reg st))) as [q|] eqn:Ek.
    + cbn [bind]. rewrite Ek. reflexivity.
    + pose proof (agree_from_reference base ref st) as H. cbv beta in H.
      destruct (find_from_reference fetch nested base ref st) as [st1|e]; cbn [bind] in H |- *.
      * rewrite H. destruct (key_get ref (map_of (fs_reg st1))); reflexivity.
      * destruct (find_from_reference_s fetch nested_s base ref st) as [[u|e'] st2];
          cbn in H; [discriminate H|]. injection H as ->. reflexivity.
Qed.

Lemma agree_find : forall ref, agree (find_s fetch fd nested_s rg_policies ref) (find_policy fetch fd nested ref).
Proof. intros ref st. exact (agree_find_gen rg_policies ref st). Qed.
Lemma agree_find_set : forall ref, agree (find_s fetch fd nested_s rg_sets ref) (find_policy_set fetch fd nested ref).
Proof. intros ref st. exact (agree_find_gen rg_sets ref st). Qed.

Lemma agree_add : forall (m : SM policybase) r (a : sacc), agree m r ->
  agree (let! p := m in slift (Ok (sacc_add a p))) (fun st => let* (p, st') := r st in Ok (sacc_add a p, st')).
Proof.
  intros m r a H. apply (agree_bind _ _ m r (fun p => slift (Ok (sacc_add a p))) (fun p st' => Ok (sacc_add a p, st')) H).
  intros p st. reflexivity.
Qed.

Lemma agree_set : forall n, agree (read_set_s E fetch fd nested_s n) (read_set E fetch fd nested n).
Proof.
  induction n as [t|tag attrs text kids IH] using node_ind'; [intros st; reflexivity|].
  cbn [read_set_s read_set]. set (n := Elem tag attrs text kids).
  destruct (negb (String.eqb (get_local_part tag) "PolicySet")); [apply agree_raise|].
  apply agree_bind_lift. intros id. apply agree_bind_lift. intros algId. apply agree_bind_lift. intros alg.
  clearbody n.
  match goal with
  | |- agree (sbind (?go_s kids ?a0) ?f) (fun st => let* (a, st1) := ?go kids ?a0 st in @?g a st1) =>
      assert (forall a, agree (go_s kids a) (go kids a)) as Hgo;
      [|apply (agree_bind _ _ (go_s kids a0) (go kids a0) f g (Hgo a0))]
  end.
  - clear n. induction IH as [|k rest Hk _ IHr]; intros a; [intros st; reflexivity|].
    destruct k as [t a' x ks|t]; [|apply IHr].
    set (k := Elem t a' x ks) in *. clearbody k.
    match goal with
    | |- agree (sbind ?m ?f) (fun st => let* (a, st1) := @?r st in @?g a st1) =>
        apply (agree_bind _ _ m r f g); [|exact IHr]
    end.
    cbv beta.
    repeat match goal with
    | |- agree (if ?b then _ else _) _ => destruct b
    end; first [apply agree_add; first [apply agree_policy|apply agree_find|apply agree_find_set|exact Hk]
               |intros st; reflexivity|idtac].
    + intros st. destruct (read_defaults k); reflexivity.
    + intros st. destruct (read_target E k); reflexivity.
  - intros a st. unfold sbind, register_s, slift.
    match goal with |- context [add_policy_set ?g ?p] => destruct (add_policy_set g p) end; reflexivity.
Qed.
End Nested.

Lemma agree_doc : forall limit n, agree (read_doc_s limit E fetch fd n) (read_doc limit E fetch fd n).
Proof.
  induction limit as [|limit IH]; intros n; cbn [read_doc read_doc_s]; [intros st; reflexivity|].
  apply agree_bind_lift. intros l.
  destruct (String.eqb l "Policy"); [apply agree_policy|].
  destruct (String.eqb l "PolicySet"); [apply (agree_set _ _ IH)|intros st; reflexivity].
Qed.
End Agree.

(** ** What the finder holds *)
Definition keeps {A} (m : SM A) : Prop :=
  forall K F, NoDup (map name_of K) ->
    exists new urls, snd (m (mkFstate (holding K) F)) = mkFstate (holding (K ++ new)) (F ++ urls) /\
      NoDup (map name_of (K ++ new)).

Lemma keeps_same : forall A (m : SM A), (forall st, snd (m st) = st) -> keeps m.
Proof. intros A m H K F Hn. exists [], []. rewrite H, !app_nil_r. auto. Qed.
Lemma keeps_lift : forall A (r : res A), keeps (slift r).
Proof. intros A r. apply keeps_same. reflexivity. Qed.
Lemma keeps_bind : forall A B (m : SM A) (f : A -> SM B),
  keeps m -> (forall a, keeps (f a)) -> keeps (sbind m f).
Proof.
  intros A B m f Hm Hf K F Hn. destruct (Hm K F Hn) as (new & urls & Hs & Hn').
  unfold sbind. destruct (m (mkFstate (holding K) F)) as [[a|e] st1]; cbn [snd] in Hs; subst st1.
  - destruct (Hf a _ (F ++ urls)%list Hn') as (new2 & urls2 & Hs2 & Hn2).
    exists (new ++ new2)%list, (urls ++ urls2)%list. rewrite Hs2, !app_assoc. rewrite ?app_assoc in Hn2. auto.
  - exists new, urls. auto.
Qed.

Lemma keeps_register : forall p, is_policy p -> keeps (register_s add_policy p).
Proof.
  intros p Hp K F Hn. unfold register_s. cbn [fs_reg fs_fetched].
  destruct (add_policy (holding K) p) as [g|e] eqn:Ea; cbn [snd].
  - apply add_policy_holding in Ea; [|exact Hp]. destruct Ea as [Hi ->]. exists [p], [].
    rewrite app_nil_r. split; [reflexivity|]. rewrite map_app. apply NoDup_snoc. auto.
  - exists [], []. rewrite !app_nil_r. auto.
Qed.
Lemma keeps_register_set : forall p, is_set p -> keeps (register_s add_policy_set p).
Proof.
  intros p Hp K F Hn. unfold register_s. cbn [fs_reg fs_fetched].
  destruct (add_policy_set (holding K) p) as [g|e] eqn:Ea; cbn [snd].
  - apply add_set_holding in Ea; [|exact Hp]. destruct Ea as [Hi ->]. exists [p], [].
    rewrite app_nil_r. split; [reflexivity|]. rewrite map_app. apply NoDup_snoc. auto.
  - exists [], []. rewrite !app_nil_r. auto.
Qed.

Section Keeps.
Variable E : renv.
Variable fetch : string -> res node.
Variable fd : finder.

Lemma read_policy_is : forall n p, read_policy E n = Ok p -> is_policy p.
Proof.
  intros n p. unfold read_policy. destruct (expect "Policy" n); [|discriminate]. cbn [bind].
  destruct (required n "PolicyId"); [|discriminate]. cbn [bind].
  destruct (required n "RuleCombiningAlgId"); [|discriminate]. cbn [bind].
  destruct (rule_alg_of _); [|discriminate]. cbn [bind].
  destruct (foldM _ _ _); [|discriminate]. cbn [bind]. intros [= <-]. exact I.
Qed.

Lemma keeps_bind_lift : forall A B (r : res A) (f : A -> SM B),
  (forall a, r = Ok a -> keeps (f a)) -> keeps (sbind (slift r) f).
Proof.
  intros A B [a|e] f H; [exact (H a eq_refl)|]. apply keeps_same. reflexivity.
Qed.

Lemma keeps_policy : forall n, keeps (read_policy_s E n).
Proof.
  intros n. apply keeps_bind_lift. intros p Hp. apply keeps_bind; [|intros _; apply keeps_lift].
  apply keeps_register, (read_policy_is n), Hp.
Qed.

Section Nested.
Variable nested_s : node -> SM policybase.
Hypothesis HN : forall n, keeps (nested_s n).

Lemma keeps_fetch : forall url,
  keeps (fun st => (fetch url, mkFstate (fs_reg st) (fs_fetched st ++ [url]))).
Proof. intros url K F Hn. exists [], [url]. rewrite app_nil_r. auto. Qed.

Lemma keeps_from_reference : forall base ref, keeps (find_from_reference_s fetch nested_s base ref).
Proof.
  intros base [r|]; [|apply keeps_lift]. apply keeps_bind; [apply keeps_lift|]. intros url.
  apply keeps_bind; [apply keeps_fetch|]. intros d.
  apply keeps_bind; [apply HN|intros _; apply keeps_lift].
Qed.

Lemma keeps_find : forall map_of ref, keeps (find_s fetch fd nested_s map_of ref).
Proof.
  intros map_of ref. unfold find_s. destruct fd as [|base]; [apply keeps_same; reflexivity|].
  apply keeps_bind; [|intros _; apply keeps_same; reflexivity].
  intros K F Hn. destruct (key_get ref (map_of (fs_reg (mkFstate (holding K) F)))).
  - exists [], []. rewrite !app_nil_r. auto.
  - apply keeps_from_reference, Hn.
Qed.

Lemma keeps_add : forall (m : SM policybase) (a : sacc), keeps m ->
  keeps (let! p := m in slift (Ok (sacc_add a p))).
Proof. intros m a H. apply keeps_bind; [exact H|]. intros p. apply keeps_lift. Qed.

Lemma keeps_set : forall n, keeps (read_set_s E fetch fd nested_s n).
Proof.
  induction n as [t|tag attrs text kids IH] using node_ind'; [apply keeps_lift|].
  cbn [read_set_s]. set (n := Elem tag attrs text kids).
  destruct (negb (String.eqb (get_local_part tag) "PolicySet")); [apply keeps_lift|].
  apply keeps_bind; [apply keeps_lift|]. intros id.
  apply keeps_bind; [apply keeps_lift|]. intros algId.
  apply keeps_bind; [apply keeps_lift|]. intros alg.
  clearbody n. apply keeps_bind.
  - generalize (mkSacc None None []). clear n.
    induction IH as [|k rest Hk _ IHr]; intros a; [apply keeps_lift|].
    destruct k as [t a' x ks|t]; [|apply IHr].
    set (k := Elem t a' x ks) in *. clearbody k.
    apply keeps_bind; [|exact IHr].
    repeat match goal with
    | |- keeps (if ?b then _ else _) => destruct b
    end; first [apply keeps_add; first [apply keeps_policy|apply keeps_find|exact Hk]|apply keeps_lift].
  - intros a. apply keeps_bind; [|intros _; apply keeps_lift]. apply keeps_register_set. exact I.
Qed.
End Nested.

Lemma keeps_doc : forall limit n, keeps (read_doc_s limit E fetch fd n).
Proof.
  induction limit as [|limit IH]; intros n; cbn [read_doc_s]; [apply keeps_lift|].
  apply keeps_bind; [apply keeps_lift|]. intros l.
  destruct (String.eqb l "Policy"); [apply keeps_policy|].
  destruct (String.eqb l "PolicySet"); [apply (keeps_set _ IH)|apply keeps_lift].
Qed.
End Keeps.
