(** Properties C35 to C39: containers and the attribute value class registry. *)
From Verif Require Import Utils SpecSetters SpecUtils UtilsFacts FuncMapFacts2.

(** ** C35 *)

(** The classes of the sixteen standard data types, and nothing else. *)
Theorem C35_standard : forall uri,
  match class_factory class_map_init uri with
  | Some (CAttrClass c) => In (uri, ac_type c) STANDARD_TYPES /\ ac_id c = uri
  | Some _ => False
  | None => ~ In uri (map fst STANDARD_TYPES)
  end.
Proof.
  intros uri. unfold class_factory, vd_get.
  destruct (dict_get uri class_map_init) as [v|] eqn:E.
  - apply dict_get_in in E. vm_compute in E.
    repeat (destruct E as [E|E]; [injection E as <- <-; split; [vm_compute; tauto|reflexivity]|]).
    destruct E.
  - apply (proj1 (dict_get_none_in _ _)) in E. exact E.
Qed.

(** After any additions: without overwrite an existing mapping stays, with overwrite
    the last one counts, invalid arguments have no effect. *)
Theorem C35_additions : forall adds uri,
  class_factory (class_run (map (fun a => CAdd (fst (fst a)) (snd (fst a)) (snd a)) adds)
                           class_map_init) uri =
  fold_left (addition_effect uri) adds (class_factory class_map_init uri).
Proof.
  intros adds uri. unfold class_factory, vd_get. rewrite class_run_lookup.
  destruct (fold_left (addition_effect uri) adds (dict_get uri class_map_init)) eqn:E;
    destruct (dict_get uri class_map_init); congruence.
Qed.

(** One addition, in any state of the registry. *)
Theorem C35_add : forall m id c overwrite,
  (exists k cls, id = NStr k /\ c = CAttrClass cls /\ fst (add_class id c overwrite m) = Ok tt /\
     (forall k', k' <> k -> class_factory (snd (add_class id c overwrite m)) k' = class_factory m k') /\
     class_factory (snd (add_class id c overwrite m)) k =
       match class_factory m k with
       | Some old => if overwrite then Some c else Some old
       | None => Some c
       end) \/
  ((forall k cls, ~ (id = NStr k /\ c = CAttrClass cls)) /\
   add_class id c overwrite m = (Raise ETypeError, m)).
Proof.
  intros m id c ov. rewrite add_class_spec.
  destruct id as [ |k| | | | | | ];
    try (right; split; [intros k cls [H _]; discriminate|destruct c; reflexivity]).
  destruct c as [cls|n|n];
    try (right; split; [intros k' cls [_ H]; discriminate|reflexivity]).
  left. exists k, cls. refine (conj eq_refl (conj eq_refl (conj eq_refl _))).
  unfold class_factory, vd_get, dict_mem. cbn [snd]. split.
  - intros k' Hk. destruct (ov || negb match dict_get k m with Some _ => true | None => false end);
      [|reflexivity]. rewrite dict_get_set.
    destruct (String.eqb_spec k' k) as [->|]; [contradiction|reflexivity].
  - destruct (dict_get k m) as [old|] eqn:E, ov; cbn [orb negb];
      rewrite ?dict_get_set, ?String.eqb_refl, ?E; reflexivity.
Qed.

(** Only attribute value classes are ever registered, whatever is done with the
    factory or the map itself. *)
Theorem C35_valid : forall ops uri v,
  class_factory (class_run ops class_map_init) uri = Some v -> exists c, v = CAttrClass c.
Proof.
  intros ops uri v H. apply (class_run_valid ops uri). unfold class_factory, vd_get in H.
  destruct (dict_get uri (class_run ops class_map_init)); congruence.
Qed.

Example C35_case :
  let mine := mkClass "MyAttributeValue" [] "urn:mine" NTStr in
  let m := class_run [CAdd (NStr "urn:mine") (CAttrClass mine) false;
                      CAdd (NStr (xs "string")) (CAttrClass mine) false;
                      CAdd (NStr (xs "integer")) (CAttrClass mine) true;
                      CAdd (NStr (xs "double")) (COtherClass 1) true;
                      CAdd (NInt 5) (CAttrClass mine) true] class_map_init in
  class_factory m "urn:mine" = Some (CAttrClass mine) /\
  class_factory m (xs "string") = Some (CAttrClass StringAV) /\
  class_factory m (xs "integer") = Some (CAttrClass mine) /\
  class_factory m (xs "double") = class_factory class_map_init (xs "double") /\
  class_factory m (xs "nothing") = None.
Proof. vm_compute. auto. Qed.

(** ** C36 *)

(** Nothing but instances gets in, whatever iterables are used. *)
Theorem C36_typed : forall A (inst : A -> bool) ops x,
  In x (tl_run inst ops []) -> inst x = true.
Proof. intros A inst ops. apply tl_run_inv. intros x []. Qed.

(** An operation is accepted exactly if all items are instances; a rejected one
    raises TypeError and changes nothing. *)
Theorem C36_all_or_nothing : forall A (inst : A -> bool) (l : list A) o,
  ((forall x, In x (offered o) -> inst x = true) -> fst (tl_step inst l o) = Ok tt) /\
  ((exists x, In x (offered o) /\ inst x = false) -> tl_step inst l o = (Raise ETypeError, l)).
Proof.
  intros A inst l o. destruct (tl_step_spec inst l o) as [H1 H2]. split.
  - intros H. apply forallb_forall in H. rewrite (H1 H). reflexivity.
  - intros (x & Hx & Hi). apply H2. destruct (forallb inst (offered o)) eqn:E; [|reflexivity].
    rewrite forallb_forall in E. rewrite (E x Hx) in Hi. discriminate.
Qed.

(** With lists, tuples and the like the content is exactly what the accepted
    operations offered, in order. *)
Theorem C36_content : forall A (inst : A -> bool) ops (l : list A),
  (forall o, In o ops -> reiterable o) ->
  tl_run inst ops l =
  (l ++ flat_map (fun o => if forallb inst (offered o) then offered o else []) ops)%list.
Proof. exact @tl_run_content. Qed.

(** Not so for generators: all of their items are accepted and none is added. *)
Theorem C36_generator_refuted :
  exists (inst : nat -> bool) (l : list nat) (o : lop nat),
    fst (tl_step inst l o) = Ok tt /\ offered o = [1; 2; 3] /\ snd (tl_step inst l o) = l.
Proof. exists (fun _ => true), [], (LExtend (OneShot [1; 2; 3])). vm_compute. auto. Qed.
Theorem C36_generator_dropped : forall A (inst : A -> bool) (l given : list A),
  snd (tl_step inst l (LExtend (OneShot given))) = l /\
  snd (tl_step inst l (LIadd (OneShot given))) = l.
Proof.
  intros A inst l given. cbn. unfold tl_extend, tl_iadd. cbn.
  destruct (forallb inst given); cbn; rewrite ?app_nil_r; auto.
Qed.

Example C36_case :
  tl_run Nat.even [LAppend 2; LAppend 3; LExtend (Reiterable [4; 6]); LIadd (Reiterable [8; 10; 11]);
                   LIadd (Reiterable [12])] [] = [2; 4; 6; 12].
Proof. reflexivity. Qed.

(** ** C37 *)

(** For an equality that never raises: the list holds the first occurrences of the
    values offered, in order. *)
Theorem C37_firsts : forall A (same eqb : A -> A -> bool) ops,
  equality eqb -> (forall x y, same x y = true -> eqb x y = true) ->
  (forall o, In o ops -> match o with
                         | LAppend _ => True
                         | _ => no_equal (fun x y => Ok (eqb x y)) (offered o)
                         end) ->
  ul_run same (fun x y => Ok (eqb x y)) ops [] = firsts eqb (flat_map offered ops).
Proof. intros A same eqb ops He Hs H. apply ul_run_firsts; assumption. Qed.

(** For any equality, raising or not. *)
Theorem C37_no_duplicates : forall A (same : A -> A -> bool) (eq : A -> A -> res bool) ops,
  (forall o, In o ops -> match o with
                         | LAppend _ => True
                         | _ => no_equal eq (offered o)
                         end) ->
  no_equal eq (ul_run same eq ops []).
Proof. exact @ul_run_no_equal. Qed.

Theorem C37_raise : forall A (same : A -> A -> bool) (eq : A -> A -> res bool) l o e,
  fst (ul_step same eq l o) = Raise e -> snd (ul_step same eq l o) = l.
Proof. exact @ul_step_raise. Qed.

(** extend and += do not compare the new items with each other. *)
Theorem C37_extend_refuted :
  ul_run Nat.eqb (fun x y => Ok (Nat.eqb x y)) [LExtend (Reiterable [1; 1])] [] = [1; 1] /\
  ul_run Nat.eqb (fun x y => Ok (Nat.eqb x y)) [LAppend 1; LIadd (Reiterable [2; 1; 2])] [] = [1; 2; 2].
Proof. split; reflexivity. Qed.

Example C37_case :
  equality Nat.eqb /\
  ul_run Nat.eqb (fun x y => Ok (Nat.eqb x y))
    [LAppend 3; LAppend 1; LAppend 3; LExtend (Reiterable [2; 1]); LIadd (OneShot [5; 3])] []
  = [3; 1; 2; 5].
Proof.
  split; [|reflexivity]. split; [apply Nat.eqb_refl| |].
  - intros x y H. rewrite Nat.eqb_sym. exact H.
  - intros x y z H1 H2. apply Nat.eqb_eq in H1, H2. subst. apply Nat.eqb_refl.
Qed.

(** ** C38 *)

(** Whatever is done with the dictionary, and whatever the filters are. *)
Theorem C38_vetted : forall V kf (vf : V -> res bool) ops k v,
  dict_get k (vd_run kf vf ops []) = Some v -> kf k = Ok true /\ vf v = Ok true.
Proof. intros V kf vf ops. apply vd_run_inv. Qed.

(** A rejected assignment changes nothing; it is silent unless a filter raises. *)
Theorem C38_rejected : forall V kf (vf : V -> res bool) k v m,
  (kf k = Ok true -> vf v = Ok true -> vd_setitem kf vf k v m = (Ok tt, dict_set k v m)) /\
  (kf k = Ok false -> vd_setitem kf vf k v m = (Ok tt, m)) /\
  (kf k = Ok true -> vf v = Ok false -> vd_setitem kf vf k v m = (Ok tt, m)) /\
  (forall e, kf k = Raise e -> vd_setitem kf vf k v m = (Raise e, m)) /\
  (forall e, kf k = Ok true -> vf v = Raise e -> vd_setitem kf vf k v m = (Raise e, m)).
Proof.
  intros V kf vf k v m. unfold vd_setitem, vd_verify.
  refine (conj _ (conj _ (conj _ (conj _ _)))).
  - intros -> ->. reflexivity.
  - intros ->. reflexivity.
  - intros -> ->. reflexivity.
  - intros e ->. reflexivity.
  - intros e -> ->. reflexivity.
Qed.

(** Item assignments and deletions: a lookup gives the last accepted assignment. *)
Theorem C38_lookup : forall V kf (vf : V -> res bool) k h,
  (forall o, In o h -> match o with VSet _ _ | VDel _ => True | _ => False end) ->
  exists x, assigned kf vf k h x /\
    vd_getitem k (vd_run kf vf h []) = match x with Some v => Ok v | None => Raise EKeyError end.
Proof.
  intros V kf vf k h H. destruct (vd_assigned_total kf vf k h H) as [x Hx]. exists x.
  split; [exact Hx|]. unfold vd_getitem. rewrite (vd_assigned _ _ _ _ _ Hx). destruct x; reflexivity.
Qed.

(** Every operation, in whatever state, does what it says to the bindings, with the
    outcome it says. *)
Theorem C38_operation : forall V kf (vf : V -> res bool) o m,
  exists f, vd_does kf vf o (fun k => dict_get k m) (fst (vd_step kf vf m o)) f /\
            forall k, dict_get k (snd (vd_step kf vf m o)) = f k.
Proof. exact @vd_step_does. Qed.

(** get: the value if present; otherwise a single default is ignored. *)
Theorem C38_get : forall V kf (vf : V -> res bool) ops k (d1 d2 : V),
  let m := vd_run kf vf ops [] in
  vd_get k [] m = vd_get k [d1] m /\
  vd_get k [d1] m = dict_get k m /\
  vd_get k [d1; d2] m = match dict_get k m with Some v => Some v | None => Some d2 end.
Proof. intros V kf vf ops k d1 d2 m. unfold vd_get. destruct (dict_get k m); auto. Qed.

Example C38_case :
  let kf k := if String.eqb k "bad" then Raise ETypeError else Ok (negb (String.eqb k "")) in
  let vf v := Ok (Nat.even v) in
  let h := [VSet "a" 2; VSet "a" 3; VSet "" 4; VSet "bad" 6; VSet "b" 8; VDel "b"; VSet "c" 10] in
  vd_run kf vf h [] = [("a", 2); ("c", 10)] /\
  vd_get "b" [7] (vd_run kf vf h []) = None /\
  vd_run kf vf [VUpdate [("a", 2); ("b", 3); ("bad", 4); ("c", 6)]; VSetDefault "a" 8; VSetDefault "d" 8;
                VPop "a"; VPopItem; VSetDefault "e" 9; VSet "f" 0] [] = [("f", 0)].
Proof. vm_compute. auto. Qed.

(** ** C39 *)

(** Item assignment and update keep the set of keys exactly. *)
Theorem C39_same_keys : forall V (d : list (string * V)) ops,
  (forall o, In o ops -> match o with RSet _ _ | RUpdate _ _ => True | _ => False end) ->
  same_keys (rd_items (rd_run ops (rd_new d))) (rd_items (rd_new d)).
Proof. intros V d ops H. apply rd_keys_same, H. Qed.

(** With deletions as well: no key is ever gained. *)
Theorem C39_never_gained : forall V (d : list (string * V)) ops k,
  (forall o, In o ops -> match o with RSetDefault _ _ => False | _ => True end) ->
  dict_get k (rd_items (rd_new d)) = None ->
  dict_get k (rd_items (rd_run ops (rd_new d))) = None.
Proof. intros V d ops k. apply rd_keys_never_gained. Qed.

(** A rejected operation changes nothing. *)
Theorem C39_rejected : forall V (s : rdict V) o e,
  fst (rd_step s o) = Raise e -> snd (rd_step s o) = s.
Proof. exact @rd_step_raise. Qed.

(** An update is accepted exactly if it only has keys the dictionary was created
    with, and then assigns all of them. *)
Theorem C39_update : forall V (d : list (string * V)) u,
  ((forall k, In k (map fst u) -> dict_get k (rd_items (rd_new d)) <> None) ->
     fst (rd_step (rd_new d) (RUpdate u [])) = Ok tt /\
     forall k, dict_get k (rd_items (snd (rd_step (rd_new d) (RUpdate u [])))) =
               match dict_get k (rev u) with
               | Some v => Some v
               | None => dict_get k (rd_items (rd_new d))
               end) /\
  ((exists k, In k (map fst u) /\ dict_get k (rd_items (rd_new d)) = None) ->
     exists e, fst (rd_step (rd_new d) (RUpdate u [])) = Raise e).
Proof.
  intros V d u. cbn [rd_step]. unfold rd_update. cbn [forallb]. split.
  - intros H.
    assert (Hf : forallb (fun p => str_in (fst p) (rd_names (rd_new d))) u = true).
    { apply forallb_forall. intros [k v] Hp. apply SettersFacts.str_in_iff. apply names_new.
      apply H. apply (in_map fst _ _ Hp). }
    rewrite Hf. split; [reflexivity|]. intros k. cbn [snd rd_items].
    change (dict_update [] (dict_update u (rd_items (rd_new d)))) with (dict_update u (rd_items (rd_new d))).
    unfold dict_update. rewrite <- fold_left_rev_right.
    induction (rev u) as [|[k0 v0] l IH]; [reflexivity|]. cbn [fold_right fst snd dict_get].
    rewrite dict_get_set. destruct (String.eqb k k0); [reflexivity|exact IH].
  - intros (k & Hk & Hn). destruct (forallb _ u) eqn:E; [|eexists; reflexivity]. exfalso.
    rewrite forallb_forall in E. apply in_map_iff in Hk. destruct Hk as ([k0 v0] & He & Hp).
    specialize (E _ Hp). apply SettersFacts.str_in_iff in E. apply names_new in E.
    cbn in He, E. subst k0. contradiction.
Qed.

(** A deletion removes a key that is there and nothing else; any other key raises
    KeyError. *)
Theorem C39_deletion : forall V (d : list (string * V)) ops k,
  let s := rd_run ops (rd_new d) in
  (dict_get k (rd_items s) <> None ->
     fst (rd_step s (RDel k)) = Ok tt /\
     forall k', dict_get k' (rd_items (snd (rd_step s (RDel k)))) =
                if String.eqb k' k then None else dict_get k' (rd_items s)) /\
  (dict_get k (rd_items s) = None -> rd_step s (RDel k) = (Raise EKeyError, s)).
Proof.
  intros V d ops k s. cbn [rd_step]. unfold rd_delitem, dict_mem.
  destruct (dict_get k (rd_items s)) as [v|] eqn:E; split; intros H; try congruence.
  split; [reflexivity|]. intros k'. cbn [snd rd_items]. destruct (String.eqb_spec k' k) as [->|N].
  - apply FuncMapFacts.dict_get_del_same.
  - apply FuncMapFacts.dict_get_del_other. congruence.
Qed.

(** After any history, including deletions, an item assignment is accepted
    exactly if the dictionary was created with the key, and then the key has that
    value; a deleted key can be assigned again. *)
Theorem C39_assignment : forall V (d : list (string * V)) ops k v,
  let s := rd_run ops (rd_new d) in
  (dict_get k (rd_items (rd_new d)) <> None ->
     fst (rd_step s (RSet k v)) = Ok tt /\
     forall k', dict_get k' (rd_items (snd (rd_step s (RSet k v)))) =
                if String.eqb k' k then Some v else dict_get k' (rd_items s)) /\
  (dict_get k (rd_items (rd_new d)) = None -> fst (rd_step s (RSet k v)) = Raise EKeyError).
Proof.
  intros V d ops k v s.
  assert (Hn : rd_names s = rd_names (rd_new d)).
  { unfold s. clear. induction ops as [|o ops IH] using rev_ind; [reflexivity|].
    rewrite rd_run_snoc, rd_names_step. exact IH. }
  cbn [rd_step]. unfold rd_setitem. rewrite Hn. split; intros H.
  - apply names_new, SettersFacts.str_in_iff in H. rewrite H. split; [reflexivity|].
    intros k'. cbn [snd rd_items]. apply dict_get_set.
  - destruct (str_in k (rd_names (rd_new d))) eqn:E; [|reflexivity].
    apply SettersFacts.str_in_iff, names_new in E. contradiction.
Qed.

(** The methods inherited from dict are not restricted. *)
Theorem C39_setdefault_refuted : exists (d : list (string * nat)) o,
  dict_get "new" (rd_items (rd_new d)) = None /\
  dict_get "new" (rd_items (snd (rd_step (rd_new d) o))) = Some 1.
Proof. exists [("a", 0)], (RSetDefault "new" 1). split; reflexivity. Qed.

Example C39_case :
  rd_items (rd_run [RSet "a" 1; RSet "z" 2; RUpdate [("a", 3); ("q", 4)] []; RUpdate [("b", 5)] [("a", 6)]]
              (rd_new [("a", 0); ("b", 0)])) = [("a", 6); ("b", 5)].
Proof. reflexivity. Qed.

Print Assumptions C35_standard.
Print Assumptions C35_additions.
Print Assumptions C35_add.
Print Assumptions C35_valid.
Print Assumptions C36_typed.
Print Assumptions C36_all_or_nothing.
Print Assumptions C36_content.
Print Assumptions C36_generator_refuted.
Print Assumptions C36_generator_dropped.
Print Assumptions C37_firsts.
Print Assumptions C37_no_duplicates.
Print Assumptions C37_raise.
Print Assumptions C37_extend_refuted.
Print Assumptions C38_vetted.
Print Assumptions C38_rejected.
Print Assumptions C38_lookup.
Print Assumptions C38_operation.
Print Assumptions C38_get.
Print Assumptions C39_same_keys.
Print Assumptions C39_never_gained.
Print Assumptions C39_rejected.
Print Assumptions C39_update.
Print Assumptions C39_setdefault_refuted.
Print Assumptions C39_deletion.
Print Assumptions C39_assignment.
