(** Lemmas for C27 and C99: the exceptions of resolving a function identifier. *)
From Verif Require SettersFacts.
From Verif Require Import FuncMap SpecFuncMap FuncMapFacts FuncMapFacts2.
Open Scope string_scope.

Lemma special_known : forall k n, dict_get k SPECIAL_TYPE_MAP = Some n -> dict_get n TYPE_URI_MAP <> None.
Proof.
  intros k n H. apply dict_get_in in H. unfold SPECIAL_TYPE_MAP in H. cbn [In] in H.
  repeat (destruct H as [H|H]; [injection H as _ <-; vm_compute; discriminate|]). destruct H.
Qed.

Lemma cap_raise : forall s e, py_capitalize_first s = Raise e -> e = EIndexError.
Proof. intros [|c s] e H; [injection H as <-; reflexivity|discriminate H]. Qed.
Lemma mapM_cap_raise : forall l e, mapM py_capitalize_first l = Raise e -> e = EIndexError.
Proof.
  induction l as [|x l IH]; intros e H; [discriminate H|].
  change (mapM py_capitalize_first (x :: l)) with
    (let* y := py_capitalize_first x in let* ys := mapM py_capitalize_first l in Ok (y :: ys)) in H.
  destruct (py_capitalize_first x) as [y|e'] eqn:Ex; cbn [bind] in H.
  - destruct (mapM py_capitalize_first l) as [ys|e'] eqn:El; cbn [bind] in H; [discriminate H|].
    injection H as <-. exact (IH e' eq_refl).
  - injection H as <-. exact (cap_raise x e' Ex).
Qed.

Lemma function_type_raises : forall cm s id e, function_type cm s id = Raise e -> e = ETypeError \/ e = EIndexError.
Proof.
  intros cm s id e H. unfold function_type in H.
  destruct (py_last (py_split ":" id)) as [name|e1] eqn:E1; cbn [bind] in H.
  2:{ unfold py_last in E1. destruct (rev _); [injection E1 as <-; injection H as <-; auto|discriminate E1]. }
  destruct (py_first (py_split s name)) as [tp|e2] eqn:E2; cbn [bind] in H.
  2:{ unfold py_first in E2. destruct (py_split s name); [injection E2 as <-; injection H as <-; auto|discriminate E2]. }
  destruct (py_capitalize_first tp) as [tn0|e3] eqn:E3; cbn [bind] in H.
  2:{ injection H as <-. right. exact (cap_raise _ _ E3). }
  destruct (if has_char "-" tn0 then camel (py_split "-" tn0) else Ok tn0) as [tn|e4] eqn:E4; cbn [bind] in H.
  2:{ injection H as <-. destruct (has_char "-" tn0); [|discriminate E4]. unfold camel in E4.
      destruct (mapM py_capitalize_first (py_split "-" tn0)) as [l|e5] eqn:E5; cbn [bind] in E4; [discriminate E4|].
      injection E4 as <-. right. exact (mapM_cap_raise _ _ E5). }
  destruct (dict_get tn TYPE_URI_MAP) as [u|]; cbn [bind] in H.
  - destruct (dict_get u cm); [discriminate H|injection H as <-; auto].
  - destruct (dict_get tp SPECIAL_TYPE_MAP) as [n|] eqn:En; cbn [bind] in H; [|injection H as <-; auto].
    pose proof (special_known _ _ En) as Hk. destruct (dict_get n TYPE_URI_MAP) as [u|]; [|congruence]. cbn [bind] in H.
    destruct (dict_get u cm); [discriminate H|injection H as <-; auto].
Qed.

Lemma resolve_raises : forall cm id e, resolve cm id = Raise e ->
  e = EFunctionMapConfigError \/ (e = EUnsupportedFunctionError /\ ~ In id FUNCTION_NAMES) \/
  e = ETypeError \/ e = EIndexError.
Proof.
  intros cm id e H. assert (Hr := H). rewrite resolve_fresh in H. unfold fresh_load in H.
  destruct (namespace_of id) as [[pkg2 n]|] eqn:Hns; [|injection H as <-; auto].
  destruct (import_factory pkg2 (module_name n)) as [fam|] eqn:Him; [|discriminate H].
  destruct (factory_call cm fam id) as [[f|]|e'] eqn:Hf; [discriminate H| |].
  - injection H as <-. right. left. unfold unsupported_error.
    destruct (str_in id FUNCTION_NAMES) eqn:Hin.
    + exfalso. apply SettersFacts.str_in_iff in Hin.
      assert (factory_call STD_CLASS_MAP fam id = Ok None) as Hs.
      { destruct fam; cbn [factory_call] in Hf |- *; try exact Hf;
          unfold typed in Hf; destruct (function_type cm _ id); discriminate Hf. }
      assert (resolve STD_CLASS_MAP id = Raise (unsupported_error id)) as Hx.
      { rewrite resolve_fresh. unfold fresh_load. rewrite Hns, Him, Hs. reflexivity. }
      destruct (catalogue id Hin) as [[_ [f Hc]]|[_ Hc]]; congruence.
    + split; [reflexivity|]. intros Hx. apply SettersFacts.str_in_iff in Hx. congruence.
  - injection H as <-. right. right.
    destruct fam; cbn [factory_call] in Hf; try discriminate Hf; unfold typed in Hf;
      match type of Hf with context [function_type cm ?s id] => destruct (function_type cm s id) as [c|e0] eqn:Ht end;
      cbn [bind] in Hf; try discriminate Hf; injection Hf as <-; exact (function_type_raises _ _ _ _ Ht).
Qed.

Lemma resolve_no_type : forall cm ns family mk, In (ns, family, mk) typed_families ->
  resolve cm (ns ++ "-" ++ family) = Raise EIndexError.
Proof.
  intros cm ns family mk H. unfold typed_families in H. cbn [In] in H.
  repeat (destruct H as [H|H]; [injection H as <- <- _; vm_compute; reflexivity|]). destruct H.
Qed.

Lemma resolve_usable : forall cm id e, resolve cm id <> Ok (FUnusable e).
Proof.
  intros cm id e H. rewrite resolve_fresh in H. unfold fresh_load in H.
  destruct (namespace_of id) as [[pkg2 n]|]; [|discriminate H].
  destruct (import_factory pkg2 (module_name n)) as [fam|]; [|discriminate H].
  destruct (factory_call cm fam id) as [[f|]|e']; discriminate H.
Qed.
