(** Copies of objects. *)
From Verif Require Import CopyFacts CopyFacts2 CopyFacts3.
From Verif Require Export SpecCopy.
From Coq Require Import Lia.
Local Open Scope list_scope.

Section Copies.
Variable E : copy_env.

(** copy.deepcopy, and pickle with any protocol, when they return: the objects that were
    there are as they were; each object that is part of the copy corresponds one to one
    to an object of the original, has its class, and has exactly the attributes that
    are kept, each a copy of the original's (so that what was shared is shared and what
    was circular is circular); lists have copies of the items in order. *)
Theorem C76_faithful : forall how n h a h' w, closed h -> a < length h ->
  make_copy E how n h (PRef a) = Ok (h', w) ->
  (exists new, h' = h ++ new) /\
  exists R b, correspondence E h h' R /\ R a b /\ w = PRef b.
Proof. exact (make_copy_correspondence E). Qed.

(** The copy and the original have no object in common. *)
Theorem C76_independent : forall how n h a h' w, closed h -> a < length h ->
  make_copy E how n h (PRef a) = Ok (h', w) ->
  exists b, w = PRef b /\ forall x, ~ (reaches h' a x /\ reaches h' b x).
Proof.
  intros how n h a h' w C L H.
  destruct (make_copy_correspondence E _ _ _ _ _ _ C L H) as [[new ->] [R [b [Co [Rab ->]]]]].
  exists b. split; [reflexivity|]. intros x [H1 H2].
  pose proof (reaches_original h new C _ _ H1 L).
  destruct (reaches_copy E _ _ _ Co _ _ H2 _ Rab) as [z Rz]. pose proof (co_new _ _ _ _ Co _ _ Rz). lia.
Qed.

(** When every object that is met can be copied, a copy is made, given a recursion limit
    of twice the number of objects (and two). *)
Theorem C76_made : forall how n h a, closed h -> obliging E -> a < length h ->
  (forall x o, visited h a x -> nth_error h x = Some o -> fit E how h o) ->
  2 * length h + 2 <= n ->
  exists h' b, make_copy E how n h (PRef a) = Ok (h', PRef b).
Proof. exact (make_copy_succeeds E). Qed.

(** A higher recursion limit changes nothing in what is made. *)
Theorem C76_limit : forall how n n' h v r, n <= n' -> make_copy E how n h v = Ok r ->
  make_copy E how n' h v = Ok r.
Proof. exact (make_copy_more E). Qed.

(** When an object of a class that cannot be copied (an attribute, or a policy object
    other than a match) is in what is kept of [a], no copy of [a] is made.  So a
    request with an attribute has no copy. *)
Theorem C76_refused : forall how n h a x c attrs, closed h -> a < length h -> belongs h a x ->
  nth_error h x = Some (CInst c attrs) -> saved c = None ->
  exists e, make_copy E how n h (PRef a) = Raise e.
Proof. exact (refused E). Qed.

Theorem C76_request_refused : forall how n h a k l t items i t' items' x,
  closed h -> a < length h -> of_class h a (CCore KRequest) -> In k ["subjects"; "resources"]%string ->
  reads h a k (PRef l) -> nth_error h l = Some (CList t items) -> In (PRef i) items ->
  (of_class h i (CCore KCtxSubject) \/ of_class h i (CCore KCtxResource)) ->
  forall la, reads h i "attributes" (PRef la) -> nth_error h la = Some (CList t' items') ->
  In (PRef x) items' -> of_class h x (CCore KAttribute) ->
  exists e, make_copy E how n h (PRef a) = Raise e.
Proof.
  intros how n h a k l t items i t' items' x C L Ca Ik Rl Hl Hi Ci la Rla Hla Hx [attrs Cx].
  eapply (refused E) with (x := x); eauto.
  destruct Ca as [aa Ha]. destruct Rl as [c0 [aa0 [Ha0 Gl]]]. rewrite Ha in Ha0. inversion Ha0; subst c0 aa0.
  destruct Rla as [ci [ai [Hi0 Gla]]].
  eapply rt_trans; [apply rt_step; eapply part_attribute; [exact Ha| |exact Gl] |].
  { split; [intros []|]. eexists. split; [reflexivity|]. apply in_or_app. right.
    destruct Ik as [<-|[<-|[]]]; [now left | right; now left]. }
  eapply rt_trans; [apply rt_step; eapply part_item; [exact Hl | exact Hi] |].
  eapply rt_trans; [apply rt_step; eapply part_attribute; [exact Hi0| |exact Gla] |].
  { destruct Ci as [[q Hq]|[q Hq]]; rewrite Hq in Hi0; inversion Hi0; subst;
      (split; [intros [] | eexists; split; [reflexivity|]; apply in_or_app; right; now left]). }
  apply rt_step. eapply part_item; eauto.
Qed.

(** A policy object whose base attributes are plain values: AttributeError. *)
Theorem C76_policy_refused : forall how n h a c attrs, 2 <= n ->
  nth_error h a = Some (CInst c attrs) -> saved c = None -> c <> CCore KAttribute ->
  (forall k v, In k ["xmlns"; "reader"; "writer"; "elem"; "dataType"]%string ->
     dict_get k attrs = Some v -> plain v) ->
  make_copy E how n h (PRef a) = Raise EAttributeError.
Proof.
  intros how n h a c attrs L N S Nc H. destruct n as [|[|n]]; [lia | lia|].
  apply (policy_refused E how n h a c attrs N S). intros k v I G. apply (H k v); [|exact G].
  destruct c as [[]| | | | | | |]; try exact I. congruence.
Qed.

(** A pickle of an object of an attribute value class of the standard is refused. *)
Theorem C76_value_refused : forall how n h a k u attrs, how <> Deep -> obliging E -> 1 <= n ->
  nth_error h a = Some (CInst (CValue k) attrs) -> In (u, k) STD_CLASS_MAP ->
  (forall j, In j ["xmlns"; "reader"; "writer"; "elem"; "dataType"; "value"]%string ->
     dict_get j attrs <> None) ->
  make_copy E how n h (PRef a) = Raise PicklingError.
Proof.
  intros how n h a k u attrs ND OE L N St H. destruct n as [|n]; [lia|].
  destruct (getstate_total E OE (CValue k) attrs _ eq_refl (or_intror H)) as [st Hst].
  assert (Im : importable E (CValue k) = false).
  { unfold importable. replace (existsb _ STD_CLASS_MAP) with true; [reflexivity|]. symmetry.
    apply existsb_exists. exists (u, k). split; [exact St|]. cbn. destruct k; cbn; try reflexivity.
    apply String.eqb_refl. }
  destruct how; [congruence| |]; unfold make_copy; cbn [dump existsb]; rewrite N; cbn [reducible];
    rewrite Hst; cbn [bind]; rewrite Im; reflexivity.
Qed.

(** The deep copy of a match or of an attribute value has no attribute at all. *)
Theorem C76_forgotten : forall how n h a c h' b, closed h -> a < length h ->
  make_copy E how n h (PRef a) = Ok (h', PRef b) -> of_class h a c -> forgetful c ->
  of_class h' b c /\ forall k v, ~ reads h' b k v.
Proof.
  intros how n h a c h' b C L H Ca Fg.
  destruct (make_copy_correspondence E _ _ _ _ _ _ C L H) as [_ [R [b' [Co [Rab e]]]]].
  inversion e; subst b'. split; [now apply (class_copy E _ _ _ _ _ _ Co Rab)|].
  intros k v Rd. destruct (reads_back E _ _ _ _ _ _ _ Co Rab Rd) as [c0 [w [C0 [[K _] _]]]].
  destruct Ca as [p Hp]. destruct C0 as [q Hq]. rewrite Hp in Hq. inversion Hq; subst. contradiction.
Qed.

(** The copy of a subject has no category. *)
Theorem C76_category_lost : forall how n h a h' b, closed h -> a < length h ->
  make_copy E how n h (PRef a) = Ok (h', PRef b) -> of_class h a (CCore KCtxSubject) ->
  forall v, ~ reads h' b "subjectCategory" v.
Proof.
  intros how n h a h' b C L H Ca v Rd.
  destruct (make_copy_correspondence E _ _ _ _ _ _ C L H) as [_ [R [b' [Co [Rab e]]]]].
  inversion e; subst b'.
  destruct (reads_back E _ _ _ _ _ _ _ Co Rab Rd) as [c0 [w [C0 [[_ [l [Sl I]]] _]]]].
  destruct Ca as [p Hp]. destruct C0 as [q Hq]. rewrite Hp in Hq. inversion Hq; subst.
  cbn in Sl. inversion Sl; subst. cbn in I. repeat (destruct I as [I|I]; [discriminate I|]). destruct I.
Qed.

(** The copy of a response has as many results, in the same order, with the same
    decisions and resource identifiers; of the status of a result nothing can be read but the
    attributes that every object has. *)
Theorem C76_response : forall how n h a h' b l, closed h -> a < length h ->
  make_copy E how n h (PRef a) = Ok (h', PRef b) -> results h a l ->
  (forall r, In r l -> of_class h r CResult) ->
  exists l', results h' b l' /\
  Forall2 (fun r r' => of_class h' r' CResult /\
    (forall s, decides h r s <-> decides h' r' s) /\
    (forall s, reads h r "resourceId" (PNat (NStr s)) <-> reads h' r' "resourceId" (PNat (NStr s))) /\
    (forall st, reads h r "status" (PRef st) -> of_class h st CStatus ->
       exists st', reads h' r' "status" (PRef st') /\ of_class h' st' CStatus /\
       forall k v, reads h' st' k v -> In k ["xmlns"; "reader"; "writer"; "elem"]%string)) l l'.
Proof.
  intros how n h a h' b l C L H Rs Cl.
  destruct (make_copy_correspondence E _ _ _ _ _ _ C L H) as [_ [R [b' [Co [Rab e]]]]].
  inversion e; subst b'.
  destruct (results_copy E _ _ _ _ _ _ Co Rab Rs) as [l' [Rs' F]]. exists l'. split; [exact Rs'|].
  clear Rs Rs'. induction F as [|r r' l l' Rr F IH]; constructor.
  - pose proof (Cl r (or_introl eq_refl)) as Cr.
    split; [now apply (class_copy E _ _ _ _ _ _ Co Rr)|].
    split; [exact (decides_copy E _ _ _ _ _ Co Rr Cr)|].
    split; [intros s; exact (reads_string E _ _ _ _ _ _ _ s Co Rr Cr kept_resource)|].
    intros st Hst Cst. exact (status_copy E _ _ _ _ _ _ Co Rr Cr Hst Cst).
  - apply IH. intros; apply Cl; now right.
Qed.

(** pickle with protocol 2 or later, which is the default, cannot copy a list with items, so not a
    response with a result. *)
Theorem C76_pickled_list_refused : forall n h a x t items, closed h -> a < length h -> belongs h a x ->
  nth_error h x = Some (CList t items) -> items <> [] ->
  exists e, make_copy E Pickle2 n h (PRef a) = Raise e.
Proof. exact (refused_pickle2 E). Qed.

Theorem C76_pickled_response_refused : forall n h a r l, closed h -> a < length h ->
  results h a (r :: l) -> exists e, make_copy E Pickle2 n h (PRef a) = Raise e.
Proof.
  intros n h a r l C L [[p Ca] [x [[c [q [Hq G]]] Hx]]].
  rewrite Ca in Hq. inversion Hq; subst c q.
  eapply (refused_pickle2 E) with (x := x); eauto; [|discriminate].
  apply rt_step. eapply part_attribute; eauto. apply kept_results.
Qed.

(** copy.copy makes one new object. *)
Theorem C76_shallow : forall h a h' b, shallow_copy E h a = Ok (h', b) ->
  b = length h /\ exists o o', nth_error h a = Some o /\ h' = h ++ [o'] /\ shallow_of E o o'.
Proof. exact (shallow_ok E). Qed.

Theorem C76_shallow_made : forall h a o, obliging E -> nth_error h a = Some o -> fit_shallow h o ->
  exists h' b, shallow_copy E h a = Ok (h', b).
Proof. exact (shallow_succeeds E). Qed.

Theorem C76_shallow_refused : forall h a c attrs, nth_error h a = Some (CInst c attrs) ->
  saved c = None -> shallow_copy E h a = Raise EAttributeError.
Proof. exact (shallow_refused E). Qed.
End Copies.

(** ** Cases *)

Definition plain_env : copy_env :=
  mkCopyEnv false (fun k => Ok k) (fun k => Ok (k + 1)%N) (fun _ k => Ok k) (fun x => Ok x)
    (fun _ => Ok ""%string) (fun _ => Ok (Comment "")) (fun _ => true).
Example obliging_case : obliging plain_env.
Proof. repeat split; intros; eexists; reflexivity. Qed.

Definition base (l : list (string * pval)) : list (string * pval) :=
  [("xmlns", PNat (NStr "x")); ("reader", PNat NNone); ("writer", PNat NNone); ("elem", PNat NNone)]%string ++ l.
(** A response with two results that share their decision; it is its own writer. *)
Definition response_heap : cheap := Eval cbn in
  [CInst CResponse (("writer"%string, PRef 0) :: base [("results"%string, PRef 1)]);
   CList EltResult [PRef 2; PRef 3];
   CInst CResult (base [("resourceId", PNat (NStr "r1")); ("decision", PRef 4); ("status", PRef 5);
                        ("obligations", PNat NNone)]%string);
   CInst CResult (base [("resourceId", PNat (NStr "r2")); ("decision", PRef 4); ("status", PRef 5);
                        ("obligations", PNat NNone)]%string);
   CInst (CDecision (Some Permit)) [("value"%string, PNat (NStr "Permit"))];
   CInst CStatus (base [("statusCode"%string, PRef 6)]);
   CInst CStatusCode (base [("value"%string, PNat (NStr "ok"))])].

Example closed_case : closed response_heap.
Proof.
  intros a o H. do 7 (destruct a as [|a]; [cbn in H; inversion H; subst; cbn; intros;
    repeat match goal with X : _ \/ _ |- _ => destruct X as [X|X] end;
    try match goal with X : False |- _ => destruct X end; try congruence;
    match goal with X : _ = _ |- _ => inversion X; subst; lia end|]).
  destruct a; discriminate.
Qed.
Example fit_case : forall hw, hw <> Pickle2 -> forall x o, visited response_heap 0 x ->
  nth_error response_heap x = Some o -> fit plain_env hw response_heap o.
Proof.
  intros hw Nh x o _ H.
  assert (F : forall l attrs, forallb (fun k => match dict_get k attrs with Some _ => true | None => false end) l = true ->
     forall k : string, In k l -> dict_get k attrs <> (None : option pval)).
  { intros l attrs B k I X. rewrite forallb_forall in B. specialize (B k I). now rewrite X in B. }
  assert (V : forall c attrs, (forall k, c <> CValue k) -> c <> CCore KPdp ->
     (exists l, saved c = Some l /\ forallb (fun k => match dict_get k attrs with Some _ => true | None => false end) l = true) ->
     fit plain_env hw response_heap (CInst c attrs)).
  { intros c attrs N1 N2 [l [S B]]. split.
    - exists l. split; [exact S|]. right. now apply F.
    - destruct hw; auto. }
  assert (Ls : fit plain_env hw response_heap (CList EltResult [PRef 2; PRef 3])).
  { destruct hw; [|congruence|]; intros v I; cbn in I.
    - destruct I as [<-|[<-|[]]]; apply typed_item_is; reflexivity.
    - destruct I as [<-|[<-|[]]]; intros [q [t [items [e Hq]]]]; inversion e; subst; discriminate. }
  do 7 (destruct x as [|x]; [cbn in H; inversion H; subst; first [exact Ls |
    apply V; [intros; discriminate | discriminate | eexists; split; [reflexivity | vm_compute; reflexivity]]]|]).
  destruct x; discriminate.
Qed.
Example results_case : results response_heap 0 [2; 3] /\ decides response_heap 2 "Permit" /\
  reads response_heap 5 "statusCode" (PRef 6).
Proof.
  split; [split; [eexists; reflexivity|]; exists 1; split; [eexists; eexists; split; reflexivity | reflexivity]|].
  split; [exists 4, (Some Permit); repeat split; do 2 eexists; split; reflexivity|].
  do 2 eexists; split; reflexivity.
Qed.
Example made_case : forall hw, hw <> Pickle2 ->
  exists h' b, make_copy plain_env hw 16 response_heap (PRef 0) = Ok (h', PRef b).
Proof.
  intros hw N. apply C76_made; [apply closed_case | apply obliging_case | cbn; lia | apply fit_case, N | cbn; lia].
Qed.
(** The copy, object by object. *)
Example deep_case : make_copy plain_env Deep 16 response_heap (PRef 0) = Ok
  ((response_heap ++
   [CInst CResponse [("xmlns", PNat (NStr "x")); ("reader", PNat NNone); ("writer", PRef 7);
                     ("elem", PNat NNone); ("results", PRef 8)];
    CList EltResult [PRef 9; PRef 12];
    CInst CResult (base [("resourceId", PNat (NStr "r1")); ("decision", PRef 10); ("status", PRef 11);
                         ("obligations", PNat NNone)]);
    CInst (CDecision (Some Permit)) [("value", PNat (NStr "Permit"))];
    CInst CStatus (base []);
    CInst CResult (base [("resourceId", PNat (NStr "r2")); ("decision", PRef 10); ("status", PRef 11);
                         ("obligations", PNat NNone)])])%list, PRef 7)%string.
Proof. vm_compute. reflexivity. Qed.
Example pickle_case : make_copy plain_env Pickle2 16 response_heap (PRef 0) = Raise EAttributeError.
Proof. vm_compute. reflexivity. Qed.

(** A request with a subject with an attribute, a rule, and an attribute value. *)
Definition request_heap : cheap := Eval cbn in
  [CInst (CCore KRequest) (base [("subjects", PRef 1); ("resources", PRef 1); ("action", PNat NNone);
     ("environment", PNat NNone); ("ctxHandler", PHandler 0); ("attributeSelector", PXPath 0)]%string);
   CList (EltType TAny) [PRef 2];
   CInst (CCore KCtxSubject) (base [("attributes", PRef 3); ("subjectCategory", PNat (NStr "c"))]%string);
   CList (EltType TAny) [PRef 4];
   CInst (CCore KAttribute) (base [("attributeValues", PRef 5); ("dataType", PNat (NStr "t"));
     ("attributeId", PNat (NStr "i")); ("issuer", PNat NNone)]%string);
   CList (EltType TAny) [PRef 6];
   CInst (CValue StringAV) (base [("dataType", PNat (NStr "t")); ("value", PNat (NStr "v"))]%string);
   CInst (CCore KRule) (base [("id", PNat (NStr "r"))]%string)].
Example refused_case : forall hw, In hw [Deep; Pickle01; Pickle2] ->
  make_copy plain_env hw 40 request_heap (PRef 7) = Raise EAttributeError /\
  make_copy plain_env hw 40 request_heap (PRef 0) =
    Raise (match hw with Deep => EAttributeError | _ => PicklingError end) /\
  make_copy plain_env hw 40 request_heap (PRef 6) =
    match hw with Deep => Ok (request_heap ++ [CInst (CValue StringAV) []], PRef 8) | _ => Raise PicklingError end.
Proof. intros hw [<-|[<-|[<-|[]]]]; vm_compute; auto. Qed.
Example request_case : of_class request_heap 0 (CCore KRequest) /\ reads request_heap 0 "subjects" (PRef 1) /\
  nth_error request_heap 1 = Some (CList (EltType TAny) [PRef 2]) /\
  of_class request_heap 2 (CCore KCtxSubject) /\ reads request_heap 2 "attributes" (PRef 3) /\
  nth_error request_heap 3 = Some (CList (EltType TAny) [PRef 4]) /\
  of_class request_heap 4 (CCore KAttribute).
Proof. repeat split; repeat eexists; reflexivity. Qed.
Example shallow_case : shallow_copy plain_env request_heap 2 =
    Ok (request_heap ++ [CInst (CCore KCtxSubject) (base [("attributes"%string, PRef 3)])], 8) /\
  shallow_copy plain_env request_heap 7 = Raise EAttributeError /\
  fit_shallow request_heap (CInst (CCore KCtxSubject) (base [("attributes"%string, PRef 3)])).
Proof.
  split; [vm_compute; reflexivity|]. split; [reflexivity|]. eexists. split; [reflexivity|]. right.
  intros k I. cbn in I. repeat (destruct I as [<-|I]; [discriminate|]). destruct I.
Qed.

Print Assumptions C76_faithful.
Print Assumptions C76_independent.
Print Assumptions C76_made.
Print Assumptions C76_limit.
Print Assumptions C76_refused.
Print Assumptions C76_request_refused.
Print Assumptions C76_policy_refused.
Print Assumptions C76_value_refused.
Print Assumptions C76_forgotten.
Print Assumptions C76_category_lost.
Print Assumptions C76_response.
Print Assumptions C76_pickled_list_refused.
Print Assumptions C76_pickled_response_refused.
Print Assumptions C76_shallow.
Print Assumptions C76_shallow_made.
Print Assumptions C76_shallow_refused.
