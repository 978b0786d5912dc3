(** What a copy of an object is supposed to be. *)
From Verif Require Export Copy.
From Coq Require Export Relations.Relation_Operators.

(** Every reference is to an object. *)
Definition closed (h : cheap) : Prop :=
  forall a o, nth_error h a = Some o ->
  match o with
  | CInst _ attrs => forall k b, In (k, PRef b) attrs -> b < length h
  | CList _ items => forall b, In (PRef b) items -> b < length h
  end.

(** The classes that can be copied, with the attributes that are saved for the copy.
    The attributes that are not listed are not: the category of a subject, the code,
    message and detail of a status and the value of a status code. *)
Definition common : list string := ["xmlns"; "reader"; "writer"; "elem"].
Definition saved (c : ccls) : option (list string) :=
  match c with
  | CCore KRequest =>
      Some (common ++ ["subjects"; "resources"; "action"; "environment"; "ctxHandler";
                       "attributeSelector"])%list
  | CCore KCtxSubject | CCore KCtxAction | CCore KCtxEnvironment => Some (common ++ ["attributes"])%list
  | CCore KCtxResource => Some (common ++ ["attributes"; "resourceContent"])%list
  | CResponse => Some (common ++ ["results"])%list
  | CResult => Some (common ++ ["resourceId"; "decision"; "status"; "obligations"])%list
  | CStatus | CStatusCode => Some common
  | CEffect | CDecision _ => Some ["value"]
  | CCore KPdp => Some ["policy"]
  | CCore (KMatch _) => Some common
  | CValue _ => Some (common ++ ["dataType"; "value"])%list
  | CCore _ => None
  end.

(** Matches and attribute values are copied, but the copy has none of its attributes. *)
Definition forgetful (c : ccls) : Prop :=
  match c with CCore (KMatch _) | CValue _ => True | _ => False end.

Definition kept (c : ccls) (k : string) : Prop :=
  ~ forgetful c /\ exists l, saved c = Some l /\ In k l.

(** [part sel h x y]: [y] is an item of the list [x], or the value of an attribute of
    [x] that is among those of [sel]. *)
Inductive part (sel : ccls -> string -> Prop) (h : cheap) : nat -> nat -> Prop :=
| part_attribute : forall x c attrs k y, nth_error h x = Some (CInst c attrs) ->
    sel c k -> dict_get k attrs = Some (PRef y) -> part sel h x y
| part_item : forall x t items y, nth_error h x = Some (CList t items) -> In (PRef y) items ->
    part sel h x y.

(** [belongs h x y]: [y] is in what is kept of [x]; [visited h x y]: in what is saved. *)
Definition belongs (h : cheap) : nat -> nat -> Prop := clos_refl_trans nat (part kept h).
Definition is_saved (c : ccls) (k : string) : Prop := exists l, saved c = Some l /\ In k l.
Definition visited (h : cheap) : nat -> nat -> Prop := clos_refl_trans nat (part is_saved h).
(** [reaches h x y]: [y] can be reached from [x] over any attributes and items. *)
Definition reaches (h : cheap) : nat -> nat -> Prop :=
  clos_refl_trans nat (part (fun _ _ => True) h).

Section Spec.
Variable E : copy_env.

(** A value and its copy, when [R] relates the objects to their copies. *)
Inductive copied (R : nat -> nat -> Prop) : pval -> pval -> Prop :=
| copied_object : forall a b, R a b -> copied R (PRef a) (PRef b)
| copied_none : copied R (PNat NNone) (PNat NNone)
| copied_string : forall s, copied R (PNat (NStr s)) (PNat (NStr s))
| copied_int : forall z, copied R (PNat (NInt z)) (PNat (NInt z))
| copied_bool : forall b, copied R (PNat (NBool b)) (PNat (NBool b))
| copied_float : forall f, copied R (PNat (NFloat f)) (PNat (NFloat f))
| copied_datetime : forall z, copied R (PNat (NDateTime z)) (PNat (NDateTime z))
| copied_timedelta : forall z, copied R (PNat (NTimeDelta z)) (PNat (NTimeDelta z))
| copied_other : forall t k k', ce_object E t k = Ok k' ->
    copied R (PNat (NOther t k)) (PNat (NOther t k'))
| copied_fn : forall f, copied R (PFn f) (PFn f)
| copied_alg : forall a, copied R (PAlg a) (PAlg a)
| copied_handler : forall k k', ce_handler E k = Ok k' -> copied R (PHandler k) (PHandler k')
| copied_selector : forall k k', ce_selector E k = Ok k' -> copied R (PXPath k) (PXPath k')
| copied_xml : forall x x', ce_xml E x = Ok x' -> copied R (PXml x) (PXml x').

(** With lxml an XML node that is the content of a resource goes through its text. *)
Definition through_text (c : ccls) (k : string) (v : pval) : Prop :=
  ce_lxml E = true /\ c = CCore KCtxResource /\ k = "resourceContent" /\ exists x, v = PXml x.
Definition reread (v w : pval) : Prop :=
  exists x s x', v = PXml x /\ ce_tostring E x = Ok s /\ ce_parse E s = Ok x' /\ w = PXml x'.
Definition copied_attribute (R : nat -> nat -> Prop) (c : ccls) (k : string) (v w : pval) : Prop :=
  (through_text c k v -> reread v w) /\ (~ through_text c k v -> copied R v w).

(** An object and its copy: the class is the same, the attributes that are kept and
    set are set and copies, and no other attribute is set; a list has the same
    element type, and its items are copied in order. *)
Inductive copy_of (R : nat -> nat -> Prop) : cobject -> cobject -> Prop :=
| copy_of_instance : forall c attrs attrs',
    saved c <> None ->
    (forall k v, kept c k -> dict_get k attrs = Some v ->
       exists w, dict_get k attrs' = Some w /\ copied_attribute R c k v w) ->
    (forall k w, dict_get k attrs' = Some w ->
       kept c k /\ exists v, dict_get k attrs = Some v /\ copied_attribute R c k v w) ->
    copy_of R (CInst c attrs) (CInst c attrs')
| copy_of_list : forall t items items', Forall2 (copied R) items items' ->
    copy_of R (CList t items) (CList t items').

(** [R] relates objects of [h] one to one to new objects of [h'] that are their copies. *)
Record correspondence (h h' : cheap) (R : nat -> nat -> Prop) : Prop := {
  co_new : forall x y, R x y -> x < length h <= y;
  co_copy : forall x y, R x y -> exists o o',
    nth_error h x = Some o /\ nth_error h' y = Some o' /\ copy_of R o o';
  co_function : forall x y y', R x y -> R x y' -> y = y';
  co_injective : forall x x' y, R x y -> R x' y -> x = x'
}.

(** A shallow copy: the attributes that are kept have the same values as in the
    original, and no other attribute is set; a list has the same items. *)
Definition shared_attribute (c : ccls) (k : string) (v w : pval) : Prop :=
  (through_text c k v -> reread v w) /\ (~ through_text c k v -> w = v).
Inductive shallow_of : cobject -> cobject -> Prop :=
| shallow_of_instance : forall c attrs attrs',
    saved c <> None ->
    (forall k v, kept c k -> dict_get k attrs = Some v ->
       exists w, dict_get k attrs' = Some w /\ shared_attribute c k v w) ->
    (forall k w, dict_get k attrs' = Some w ->
       kept c k /\ exists v, dict_get k attrs = Some v /\ shared_attribute c k v w) ->
    shallow_of (CInst c attrs) (CInst c attrs')
| shallow_of_list : forall t items, shallow_of (CList t items) (CList t items).
End Spec.

(** ** When copying succeeds *)

(** Nothing from outside refuses to be copied. *)
Definition obliging (E : copy_env) : Prop :=
  (forall k, exists k', ce_handler E k = Ok k') /\
  (forall k, exists k', ce_selector E k = Ok k') /\
  (forall t k, exists k', ce_object E t k = Ok k') /\
  (forall x, exists x', ce_xml E x = Ok x') /\
  (forall x, exists s, ce_tostring E x = Ok s) /\
  (forall s, exists x, ce_parse E s = Ok x).

Definition is_list (h : cheap) (v : pval) : Prop :=
  exists a t items, v = PRef a /\ nth_error h a = Some (CList t items).

(** [v] is an instance of the element type [t] of a list. *)
Inductive typed_item (h : cheap) : pval -> celt -> Prop :=
| ti_result : forall a attrs, nth_error h a = Some (CInst CResult attrs) -> typed_item h (PRef a) EltResult
| ti_str : forall s, typed_item h (PNat (NStr s)) (EltType TStr)
| ti_bool : forall b, typed_item h (PNat (NBool b)) (EltType TBool)
| ti_handler : forall n, typed_item h (PHandler n) (EltType THandler)
| ti_xpath : forall n, typed_item h (PXPath n) (EltType TXPathSelector)
| ti_any : forall v, (forall a, v = PRef a -> nth_error h a <> None) -> typed_item h v (EltType TAny)
| ti_class : forall a c attrs, nth_error h a = Some (CInst (CCore c) attrs) ->
    typed_item h (PRef a) (EltType (TCls c))
| ti_designator : forall a k attrs, nth_error h a = Some (CInst (CCore (KDesignator k)) attrs) ->
    typed_item h (PRef a) (EltType TDesignator)
| ti_expression : forall a c attrs, nth_error h a = Some (CInst c attrs) ->
    (exists k, c = CCore (KDesignator k)) \/ c = CCore KSelector \/ c = CCore KApply \/ (exists k, c = CValue k) ->
    typed_item h (PRef a) (EltType TExpression)
| ti_value : forall a k attrs, nth_error h a = Some (CInst (CValue k) attrs) ->
    typed_item h (PRef a) (EltType TAttributeValue)
| ti_policy : forall a c attrs, nth_error h a = Some (CInst c attrs) ->
    c = CCore KPolicy \/ c = CCore KPolicySet -> typed_item h (PRef a) (EltType TPolicyBase)
| ti_effect : forall a attrs, nth_error h a = Some (CInst CEffect attrs) -> typed_item h (PRef a) (EltType TEffect)
| ti_list : forall a t items, nth_error h a = Some (CList t items) -> typed_item h (PRef a) (EltType TTypedList).

(** An object that can be copied: its class can, the attributes to save are set; a
    list only with what deepcopy and the versions of pickle accept. *)
Definition fit (E : copy_env) (how : how) (h : cheap) (o : cobject) : Prop :=
  match o with
  | CInst c attrs =>
      (exists l, saved c = Some l /\
         (c = CCore KPdp \/ forall k, In k l -> dict_get k attrs <> None)) /\
      match how with
      | Deep => True
      | Pickle2 => forall k, c <> CValue k
      | Pickle01 => (forall k, c <> CValue k) /\ c <> CCore KPdp
      end
  | CList t items =>
      match how with
      | Deep => forall v, In v items -> typed_item h v t
      | Pickle2 => items = []
      | Pickle01 => forall v, In v items -> ~ is_list h v
      end
  end.

(** What copy.copy needs: only the class and the attributes of the object itself. *)
Definition fit_shallow (h : cheap) (o : cobject) : Prop :=
  match o with
  | CInst c attrs => exists l, saved c = Some l /\
      (c = CCore KPdp \/ forall k, In k l -> dict_get k attrs <> None)
  | CList t items => forall v, In v items -> typed_item h v t
  end.

(** None, a string, a number and so on, but not an object of another class. *)
Definition plain (v : pval) : Prop := exists nv, v = PNat nv /\ forall t k, nv <> NOther t k.

(** ** Responses *)

(** [reads h a k v]: attribute [k] of [a] can be read and is [v]. *)
Definition reads (h : cheap) (a : nat) (k : string) (v : pval) : Prop :=
  exists c attrs, nth_error h a = Some (CInst c attrs) /\ dict_get k attrs = Some v.
Definition of_class (h : cheap) (a : nat) (c : ccls) : Prop :=
  exists attrs, nth_error h a = Some (CInst c attrs).
(** The results of a response. *)
Definition results (h : cheap) (a : nat) (l : list nat) : Prop :=
  of_class h a CResponse /\ exists b, reads h a "results" (PRef b) /\
  nth_error h b = Some (CList EltResult (map PRef l)).
(** The decision of a result. *)
Definition decides (h : cheap) (r : nat) (s : string) : Prop :=
  exists d k, reads h r "decision" (PRef d) /\ of_class h d (CDecision k) /\
  reads h d "value" (PNat (NStr s)).
