(** Proofs about function identifiers and function maps. *)
From Verif Require Import FuncMap SpecFuncMap StringFacts StateFacts.
From Coq Require Import Lia.

Section Map.
Variable cm : list (string * avclass).

(** ** Loading *)

Definition fresh_load (id : string) : res fclass :=
  match namespace_of id with
  | None => Raise EFunctionMapConfigError
  | Some (pkg2, functionName) =>
      match import_factory pkg2 (module_name functionName) with
      | None => Ok FNotImplemented
      | Some fam =>
          match factory_call cm fam id with
          | Raise e => Raise e
          | Ok None => Raise (unsupported_error id)
          | Ok (Some f) => Ok (FImpl f)
          end
      end
  end.

Lemma resolve_fresh : forall id, resolve cm id = fresh_load id.
Proof.
  intros id. unfold resolve, fm_getitem, fm_load, fresh_load, fm_new.
  cbn [fm_map fm_factories dict_get dict_mem].
  unfold dict_mem. cbn [dict_get].
  destruct (namespace_of id) as [[pkg2 n]|]; [|reflexivity].
  destruct (import_factory pkg2 (module_name n)) as [fam|].
  - destruct (factory_call cm fam id) as [[f|]|e]; try reflexivity.
    unfold fm_put. cbn [fm_map dict_set dict_get]. rewrite String.eqb_refl. reflexivity.
  - unfold fm_put. cbn [fst fm_map dict_set dict_get]. rewrite String.eqb_refl. reflexivity.
Qed.

(** The map agrees with the custom entries [cu] and with fresh resolution. *)
Record inv (cu : string -> option fclass) (m : fmap) : Prop := {
  inv_custom : forall id c, cu id = Some c -> dict_get id (fm_map m) = Some c;
  inv_std : forall id c, cu id = None -> dict_get id (fm_map m) = Some c ->
              resolve cm id = Ok c;
  inv_factory : forall id fam, dict_get id (fm_factories m) = Some fam ->
    exists pkg2 n f, namespace_of id = Some (pkg2, n) /\
                     import_factory pkg2 (module_name n) = Some fam /\
                     factory_call cm fam id = Ok (Some f)
}.

Lemma inv_new : inv (fun _ => None) fm_new.
Proof. split; intros id c; try discriminate. Qed.

Lemma fm_load_spec : forall cu m id, inv cu m ->
  let '(r, m') := fm_load cm id m in
  inv cu m' /\
  match cu id with
  | Some c => r = Ok tt /\ m' = m
  | None => match resolve cm id with
            | Ok c => r = Ok tt /\ dict_get id (fm_map m') = Some c
            | Raise e => r = Raise e /\ m' = m
            end
  end.
Proof.
  intros cu m id Hi. unfold fm_load, dict_mem.
  destruct (dict_get id (fm_map m)) as [c0|] eqn:Eg.
  - split; [exact Hi|]. destruct (cu id) as [c|] eqn:Ec; [auto|].
    rewrite (inv_std _ _ Hi id c0 Ec Eg). auto.
  - assert (Hcu : cu id = None).
    { destruct (cu id) as [c|] eqn:Ec; [|reflexivity].
      rewrite (inv_custom _ _ Hi id c Ec) in Eg. discriminate. }
    rewrite Hcu.
    assert (Hput : forall f (fac : list (string * family)), resolve cm id = Ok f ->
      (forall i fam, dict_get i fac = Some fam ->
         exists pkg2 n f, namespace_of i = Some (pkg2, n) /\
                          import_factory pkg2 (module_name n) = Some fam /\
                          factory_call cm fam i = Ok (Some f)) ->
      inv cu (mkFmap (fm_map (fm_put id f m)) fac)).
    { intros f fac Hf Hfac. split; cbn [fm_map fm_factories fm_put]; [| |exact Hfac].
      - intros i c Hc. rewrite dict_get_set_other by congruence. apply (inv_custom _ _ Hi), Hc.
      - intros i c Hc Hg. destruct (String.eqb id i) eqn:E.
        + apply String.eqb_eq in E. subst i. rewrite dict_get_set_same in Hg. congruence.
        + apply String.eqb_neq in E. rewrite dict_get_set_other in Hg by congruence.
          apply (inv_std _ _ Hi i c Hc Hg). }
    destruct (dict_get id (fm_factories m)) as [fam|] eqn:Ef.
    + destruct (inv_factory _ _ Hi id fam Ef) as (pkg2 & n & f & Hn & Him & Hf).
      assert (Hr : resolve cm id = Ok (FImpl f)).
      { rewrite resolve_fresh. unfold fresh_load. rewrite Hn, Him, Hf. reflexivity. }
      rewrite Hf, Hr. split.
      * apply (Hput (FImpl f) (fm_factories m) Hr (inv_factory _ _ Hi)).
      * split; [reflexivity|]. cbn. apply dict_get_set_same.
    + rewrite resolve_fresh. unfold fresh_load.
      destruct (namespace_of id) as [[pkg2 n]|] eqn:Hn; [|split; [exact Hi|split; reflexivity]].
      destruct (import_factory pkg2 (module_name n)) as [fam|] eqn:Him.
      * destruct (factory_call cm fam id) as [[f|]|e] eqn:Ec;
          try (split; [exact Hi|split; reflexivity]).
        split.
        -- apply Hput.
           ++ rewrite resolve_fresh. unfold fresh_load. rewrite Hn, Him, Ec. reflexivity.
           ++ intros i fam' Hg. cbn in Hg. destruct (String.eqb id i) eqn:E.
              ** apply String.eqb_eq in E. subst i. rewrite dict_get_set_same in Hg.
                 injection Hg as <-. exists pkg2, n, f. auto.
              ** apply String.eqb_neq in E. rewrite dict_get_set_other in Hg by congruence.
                 apply (inv_factory _ _ Hi), Hg.
        -- split; [reflexivity|]. cbn. apply dict_get_set_same.
      * split.
        -- apply (Hput FNotImplemented (fm_factories m)); [|exact (inv_factory _ _ Hi)].
           rewrite resolve_fresh. unfold fresh_load. rewrite Hn, Him. reflexivity.
        -- split; [reflexivity|]. cbn. apply dict_get_set_same.
Qed.

Definition upd (cu : string -> option fclass) (id : string) (c : option fclass)
  : string -> option fclass :=
  fun i => if String.eqb id i then c else cu i.

Lemma inv_ext : forall cu cu' m, (forall i, cu i = cu' i) -> inv cu m -> inv cu' m.
Proof.
  intros cu cu' m He [H1 H2 H3]. split; [| |exact H3].
  - intros i c Hc. apply H1. rewrite He. exact Hc.
  - intros i c Hc. apply H2. rewrite He. exact Hc.
Qed.

Lemma inv_put : forall cu m id c, inv cu m -> inv (upd cu id (Some c)) (fm_put id c m).
Proof.
  intros cu m id c [H1 H2 H3]. unfold upd.
  split; cbn [fm_put fm_map fm_factories]; [| |exact H3]; intros i c'.
  - destruct (String.eqb id i) eqn:E.
    + apply String.eqb_eq in E. subst i. intros H. injection H as <-. apply dict_get_set_same.
    + apply String.eqb_neq in E. intros H. rewrite dict_get_set_other by congruence. auto.
  - destruct (String.eqb id i) eqn:E; [discriminate|]. apply String.eqb_neq in E.
    rewrite dict_get_set_other by congruence. apply H2.
Qed.

Lemma dict_get_del_same : forall V k (d : list (string * V)), dict_get k (dict_del k d) = None.
Proof.
  intros V k d. induction d as [|[k' v] d IH]; [reflexivity|]. unfold dict_del in *. simpl.
  destruct (String.eqb k k') eqn:E; simpl; [exact IH|]. rewrite E. exact IH.
Qed.

Lemma dict_get_del_other : forall V k k' (d : list (string * V)), k <> k' ->
  dict_get k' (dict_del k d) = dict_get k' d.
Proof.
  intros V k k' d Hne. induction d as [|[k1 v] d IH]; [reflexivity|]. unfold dict_del in *. simpl.
  destruct (String.eqb k k1) eqn:E; simpl.
  - apply String.eqb_eq in E. subst k1.
    destruct (String.eqb k' k) eqn:E'; [apply String.eqb_eq in E'; congruence|exact IH].
  - destruct (String.eqb k' k1); [reflexivity|exact IH].
Qed.

Lemma inv_del : forall cu m id, inv cu m ->
  inv (upd cu id None) (mkFmap (dict_del id (fm_map m)) (fm_factories m)).
Proof.
  intros cu m id [H1 H2 H3]. unfold upd. split; cbn [fm_map fm_factories]; [| |exact H3]; intros i c.
  - destruct (String.eqb id i) eqn:E; [discriminate|]. apply String.eqb_neq in E.
    rewrite dict_get_del_other by exact E. apply H1.
  - destruct (String.eqb id i) eqn:E.
    + apply String.eqb_eq in E. subst i. rewrite dict_get_del_same. discriminate.
    + apply String.eqb_neq in E. rewrite dict_get_del_other by exact E. apply H2.
Qed.

Lemma fm_getitem_spec : forall cu m id, inv cu m ->
  fst (fm_getitem cm id m) = match cu id with Some c => Ok c | None => resolve cm id end /\
  inv cu (snd (fm_getitem cm id m)).
Proof.
  intros cu m id Hi. unfold fm_getitem.
  destruct (dict_get id (fm_map m)) as [c0|] eqn:Eg.
  - rewrite Eg. cbn [fst snd]. split; [|exact Hi].
    destruct (cu id) as [c|] eqn:Ec.
    + rewrite (inv_custom _ _ Hi id c Ec) in Eg. congruence.
    + symmetry. apply (inv_std _ _ Hi id c0 Ec Eg).
  - pose proof (fm_load_spec cu m id Hi) as H.
    destruct (fm_load cm id m) as [r m1]. destruct H as [Hi1 H].
    destruct (cu id) as [c|] eqn:Ec.
    + rewrite (inv_custom _ _ Hi id c Ec) in Eg. discriminate.
    + destruct (resolve cm id) as [c|e].
      * destruct H as [-> Hg]. rewrite Hg. split; [reflexivity|exact Hi1].
      * destruct H as [-> ->]. split; [reflexivity|exact Hi].
Qed.

Lemma fm_get_spec : forall cu m id, inv cu m ->
  fst (fm_get cm id m) = match cu id with
                         | Some c => Ok (Some c)
                         | None => bind (resolve cm id) (fun c => Ok (Some c))
                         end /\
  inv cu (snd (fm_get cm id m)).
Proof.
  intros cu m id Hi. unfold fm_get.
  destruct (dict_get id (fm_map m)) as [c0|] eqn:Eg.
  - cbn [fst snd]. split; [|exact Hi].
    destruct (cu id) as [c|] eqn:Ec.
    + rewrite (inv_custom _ _ Hi id c Ec) in Eg. congruence.
    + rewrite (inv_std _ _ Hi id c0 Ec Eg). reflexivity.
  - pose proof (fm_load_spec cu m id Hi) as H.
    destruct (fm_load cm id m) as [r m1]. destruct H as [Hi1 H].
    destruct (cu id) as [c|] eqn:Ec.
    + rewrite (inv_custom _ _ Hi id c Ec) in Eg. discriminate.
    + destruct (resolve cm id) as [c|e].
      * destruct H as [-> Hg]. cbn [fst snd bind]. rewrite Hg. split; [reflexivity|exact Hi1].
      * destruct H as [-> ->]. split; [reflexivity|exact Hi].
Qed.

Lemma fm_load_all_inv : forall cu ids m, inv cu m -> inv cu (snd (fm_load_all cm ids m)).
Proof.
  intros cu. induction ids as [|id ids IH]; intros m Hi; simpl; [exact Hi|].
  pose proof (fm_load_spec cu m id Hi) as H. destruct (fm_load cm id m) as [[u|e] m1];
    destruct H as [Hi1 _]; [apply IH|]; exact Hi1.
Qed.

Definition cu_step (cu : string -> option fclass) (o : fop) : string -> option fclass :=
  fun id => custom_effect id (cu id) o.

Lemma fm_step_inv : forall cu m o, inv cu m -> inv (cu_step cu o) (fm_step cm o m).
Proof.
  intros cu m o Hi. destruct o as [id|id|id| |id src|id v|id]; unfold cu_step; cbn [fm_step custom_effect].
  - apply fm_getitem_spec, Hi.
  - apply fm_get_spec, Hi.
  - pose proof (fm_load_spec cu m id Hi) as H. destruct (fm_load cm id m) as [r m1]. apply H.
  - apply fm_load_all_inv, Hi.
  - unfold fm_load_custom.
    destruct (str_in id FUNCTION_NAMES) eqn:Es.
    + apply inv_ext with (cu := cu); [|exact Hi]. intros i.
      destruct (String.eqb id i) eqn:E; [|reflexivity].
      apply String.eqb_eq in E. subst i. rewrite Es. reflexivity.
    + assert (Hsame : yields src = None ->
        inv (fun i => if String.eqb id i && negb (str_in i FUNCTION_NAMES)
             then match yields src with Some c => Some c | None => cu i end else cu i) m).
      { intros Hy. apply inv_ext with (cu := cu); [|exact Hi]. intros i. rewrite Hy.
        destruct (_ && _); reflexivity. }
      assert (Hput : forall c, yields src = Some c ->
        inv (fun i => if String.eqb id i && negb (str_in i FUNCTION_NAMES)
             then match yields src with Some c => Some c | None => cu i end else cu i)
            (fm_put id c m)).
      { intros c Hy. apply inv_ext with (cu := upd cu id (Some c)); [|apply inv_put, Hi].
        intros i. unfold upd. rewrite Hy. destruct (String.eqb id i) eqn:E; [|reflexivity].
        apply String.eqb_eq in E. subst i. rewrite Es. reflexivity. }
      destruct src as [[e| |c|]| |e|[e| |c|]]; cbn [snd]; (apply Hput + apply Hsame); reflexivity.
  - destruct v as [c|]; cbn [fm_setitem snd]; [|exact Hi].
    apply inv_ext with (cu := upd cu id (Some c)); [|apply inv_put, Hi]. reflexivity.
  - unfold fm_delitem, dict_mem. destruct (dict_get id (fm_map m)) as [c0|] eqn:Eg; cbn [snd].
    + apply inv_ext with (cu := upd cu id None); [|apply inv_del, Hi]. reflexivity.
    + apply inv_ext with (cu := cu); [|exact Hi]. intros i.
      destruct (String.eqb id i) eqn:E; [|reflexivity].
      apply String.eqb_eq in E. subst i. destruct (cu id) as [c|] eqn:Ec; [|reflexivity].
      rewrite (inv_custom _ _ Hi id c Ec) in Eg. discriminate.
Qed.

Lemma fm_run_inv : forall ops cu m, inv cu m ->
  inv (fun id => fold_left (custom_effect id) ops (cu id)) (fm_run cm ops m).
Proof.
  induction ops as [|o ops IH]; intros cu m Hi; cbn [fold_left fm_run].
  - exact Hi.
  - apply (IH (cu_step cu o)). apply fm_step_inv, Hi.
Qed.

Lemma lookup_after : forall ops id,
  fst (fm_getitem cm id (fm_run cm ops fm_new)) =
  match last_custom id ops with Some c => Ok c | None => resolve cm id end.
Proof.
  intros ops id. apply fm_getitem_spec with (cu := fun i => last_custom i ops).
  exact (fm_run_inv ops (fun _ => None) fm_new inv_new).
Qed.

Lemma get_after : forall ops id,
  fst (fm_get cm id (fm_run cm ops fm_new)) =
  match last_custom id ops with
  | Some c => Ok (Some c)
  | None => bind (resolve cm id) (fun c => Ok (Some c))
  end.
Proof.
  intros ops id. apply fm_get_spec with (cu := fun i => last_custom i ops).
  exact (fm_run_inv ops (fun _ => None) fm_new inv_new).
Qed.
End Map.

(** A standard identifier has no custom entry unless one was assigned directly. *)
Lemma std_no_custom : forall ops id,
  In id FUNCTION_NAMES -> Forall no_assignment ops -> last_custom id ops = None.
Proof.
  intros ops id Hin Hops. unfold last_custom.
  assert (Hs : str_in id FUNCTION_NAMES = true).
  { unfold str_in. apply existsb_exists. exists id. split; [exact Hin|apply String.eqb_refl]. }
  assert (Hgen : forall acc, acc = None -> fold_left (custom_effect id) ops acc = None).
  { induction Hops as [|o ops Ho _ IH]; intros acc ->; [reflexivity|]. cbn [fold_left]. apply IH.
    destruct o as [i|i|i| |i src|i v|i]; cbn [custom_effect]; try reflexivity.
    - rewrite Hs. rewrite andb_false_r. reflexivity.
    - contradiction.
    - destruct (String.eqb i id); reflexivity. }
  apply Hgen. reflexivity.
Qed.

Lemma load_custom_std : forall id src m, In id FUNCTION_NAMES ->
  fm_load_custom id src m = (Raise EOverwritingStdFunctionError, m).
Proof.
  intros id src m Hin. unfold fm_load_custom.
  assert (Hs : str_in id FUNCTION_NAMES = true).
  { unfold str_in. apply existsb_exists. exists id. split; [exact Hin|apply String.eqb_refl]. }
  rewrite Hs. reflexivity.
Qed.
