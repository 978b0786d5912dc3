(** Lemmas about the first child of a policy set that is refused. *)
From Verif Require Import Readers SpecText SpecSetters SpecRead SpecRefusals.
From Verif Require Import EvalFacts StringFacts SettersFacts TextFacts ReadFacts ReadFacts2 ReadFacts3 ReadFacts4
  RefusalsFacts RefusalsFacts2 RefusalsFacts4.
Local Open Scope string_scope.
Local Open Scope list_scope.

Lemma first_step : forall E fetch fd limit K F tag attrs text before k after p K' F' e, default_readers E ->
  called "PolicySet" (Elem tag attrs text before) = true ->
  read_doc (S limit) E fetch fd (Elem tag attrs text before) (mkFstate (holding K) F) =
    Ok (p, mkFstate (holding (K' ++ [p])) F') ->
  is_elem k ->
  (forall a, set_step E fetch fd (read_doc limit E fetch fd) (a, mkFstate (holding K') F') k = Raise e) ->
  read_doc (S limit) E fetch fd (Elem tag attrs text (before ++ k :: after)) (mkFstate (holding K) F) = Raise e.
Proof.
  intros E fetch fd limit K F tag attrs text before k after p K' F' e HE Hc H Hek Hk.
  set (n := Elem tag attrs text before) in *.
  assert (He : is_elem n) by exact I.
  assert (Hln : ln n = "PolicySet") by (apply ln_is; [reflexivity|exact Hc]).
  set (m := Elem tag attrs text (before ++ k :: after)).
  assert (Hm : is_elem m) by exact I.
  assert (Hl : ln m = ln n) by reflexivity.
  assert (Hr : required m = required n) by reflexivity.
  assert (Hx : exists l, elems m = elems n ++ k :: l).
  { unfold m. cbn [elems]. rewrite filter_app. destruct k as [kt ka kx kk|kt]; [|destruct Hek]. cbn [filter].
    eexists. reflexivity. }
  cbn [read_doc] in H |- *. rewrite local_ln in H by exact He.
  rewrite local_ln by exact Hm. cbn [bind] in *. rewrite Hl. rewrite Hln in *. cbn [String.eqb Ascii.eqb Bool.eqb] in H |- *.
  rewrite read_set_eq in H by exact He. rewrite read_set_eq by exact Hm. rewrite Hl, Hr, Hln in *.
  cbn [negb String.eqb Ascii.eqb Bool.eqb] in H |- *.
  destruct (required n "PolicySetId") as [id|e1]; cbn [bind] in *; [|discriminate H].
  destruct (required n "PolicyCombiningAlgId") as [ai|e1]; cbn [bind] in *; [|discriminate H].
  destruct (policy_alg_of ai) as [alg|e1]; cbn [bind] in *; [|discriminate H].
  match type of H with bind ?f _ = _ => destruct f as [[a st1]|e1] eqn:Hf end; cbn [bind] in H; [|discriminate H].
  assert (Hs : st1 = mkFstate (holding K') F').
  { clear Hk. apply set_fold in Hf; [|exact HE|exact (elems_is n)]. destruct Hf as (_ & _ & _ & Hrun).
    rewrite <- members_eq in Hrun. apply (run_sound E HE fetch fd _ (doc_sound E HE fetch fd limit)) in Hrun.
    2:{ intros x Hi. apply filter_In in Hi. destruct Hi as [Hk1 Hk2]. split; [exact (elems_is n x Hk1)|exact Hk2]. }
    destruct Hrun as (K1 & U & _ & ->). cbn [fs_reg fs_fetched] in H.
    match type of H with context [add_policy_set _ ?q] => set (Q := q) in * end.
    destruct (in_dec name_eq_dec (SetName (Some id)) (map name_of K1)) as [Hi|Hi].
    - exfalso. destruct (add_policy_set (holding K1) Q) as [g|e1] eqn:X; cbn [bind] in H; [|discriminate H].
      assert (Y : add_policy_set (holding K1) Q = Ok g /\ True) by auto.
      destruct Y as [Y _]. apply add_set_holding in Y; [|exact I]. destruct Y as [Y _]. exact (Y Hi).
    - assert (X : add_policy_set (holding K1) Q = Ok (holding (K1 ++ [Q])))
        by (apply add_set_holding; [exact I|]; split; [exact Hi|reflexivity]).
      rewrite X in H. cbn [bind] in H. injection H as <- H1 H2 <-.
      rewrite !filter_app, !map_app in H1, H2. cbn [filter map] in H1, H2. rewrite !app_nil_r in H1.
      apply app_inj_tail in H2. destruct H2 as [H2 _]. f_equal. unfold holding. f_equal; assumption. }
  destruct Hx as (l & ->). rewrite foldM_app, Hf. cbn [bind foldM]. rewrite Hs. rewrite Hk. reflexivity.
Qed.
