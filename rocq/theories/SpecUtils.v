(** Notions used in the statements about the container classes. *)
From Verif Require Import Utils SpecSetters.

(** The items of an iterable. *)
Definition items {A} (it : iterable A) : list A :=
  match it with Reiterable l => l | OneShot l => l end.
(** What an operation offers to a list. *)
Definition offered {A} (o : lop A) : list A :=
  match o with LAppend x => [x] | LExtend it | LIadd it => items it end.
Definition reiterable {A} (o : lop A) : Prop :=
  match o with
  | LExtend (OneShot _) | LIadd (OneShot _) => False
  | _ => True
  end.

(** Each element that no earlier element equals. *)
Fixpoint firsts {A} (eqb : A -> A -> bool) (l : list A) : list A :=
  match l with
  | [] => []
  | x :: r => x :: filter (fun y => negb (eqb x y)) (firsts eqb r)
  end.

(** No two elements are equal. *)
Definition no_equal {A} (eq : A -> A -> res bool) (l : list A) : Prop :=
  forall i j x y, i < j -> nth_error l i = Some x -> nth_error l j = Some y -> eq x y = Ok false.

(** [eqb] is an equality. *)
Record equality {A} (eqb : A -> A -> bool) : Prop := {
  equality_refl : forall x, eqb x x = true;
  equality_sym : forall x y, eqb x y = true -> eqb y x = true;
  equality_trans : forall x y z, eqb x y = true -> eqb y z = true -> eqb x z = true
}.

Definition same_keys {V W} (a : list (string * V)) (b : list (string * W)) : Prop :=
  forall k, dict_get k a = None <-> dict_get k b = None.

(** What a filter pair accepts. *)
Definition vetted {V} (kf : string -> res bool) (vf : V -> res bool) (k : string) (v : V) : Prop :=
  kf k = Ok true /\ vf v = Ok true.

(** The binding of [k] after a sequence of item assignments and deletions. *)
Inductive assigned {V} (kf : string -> res bool) (vf : V -> res bool) (k : string)
  : list (vop V) -> option V -> Prop :=
| assigned_none : assigned kf vf k [] None
| assigned_set : forall h v, vetted kf vf k v -> assigned kf vf k (h ++ [VSet k v]) (Some v)
| assigned_rejected : forall h k' v x, k' <> k \/ ~ vetted kf vf k v ->
    assigned kf vf k h x -> assigned kf vf k (h ++ [VSet k' v]) x
| assigned_del : forall h, assigned kf vf k (h ++ [VDel k]) None
| assigned_del_other : forall h k' x, k' <> k ->
    assigned kf vf k h x -> assigned kf vf k (h ++ [VDel k']) x.

(** What one operation on a vetted dictionary does to its bindings.  [popitem] takes
    some key. *)
Definition upd {V} (f : string -> option V) (k : string) (x : option V) : string -> option V :=
  fun k' => if String.eqb k' k then x else f k'.
Inductive vd_does {V} (kf : string -> res bool) (vf : V -> res bool)
  : vop V -> (string -> option V) -> res unit -> (string -> option V) -> Prop :=
| does_set : forall k v f, vetted kf vf k v -> vd_does kf vf (VSet k v) f (Ok tt) (upd f k (Some v))
| does_not_set : forall k v f, kf k = Ok false \/ (kf k = Ok true /\ vf v = Ok false) ->
    vd_does kf vf (VSet k v) f (Ok tt) f
| does_refuse : forall k v f e, kf k = Raise e \/ (kf k = Ok true /\ vf v = Raise e) ->
    vd_does kf vf (VSet k v) f (Raise e) f
| does_del : forall k f, f k <> None -> vd_does kf vf (VDel k) f (Ok tt) (upd f k None)
| does_not_del : forall k f, f k = None -> vd_does kf vf (VDel k) f (Raise EKeyError) f
| does_pop : forall k f, f k <> None -> vd_does kf vf (VPop k) f (Ok tt) (upd f k None)
| does_not_pop : forall k f, f k = None -> vd_does kf vf (VPop k) f (Raise EKeyError) f
| does_popitem : forall k f, f k <> None -> vd_does kf vf VPopItem f (Ok tt) (upd f k None)
| does_not_popitem : forall f, (forall k, f k = None) -> vd_does kf vf VPopItem f (Raise EKeyError) f
| does_clear : forall f, vd_does kf vf VClear f (Ok tt) (fun _ => None)
| does_keep : forall k v f, f k <> None -> vd_does kf vf (VSetDefault k v) f (Ok tt) f
| does_default : forall k v f r f', f k = None -> vd_does kf vf (VSet k v) f r f' ->
    vd_does kf vf (VSetDefault k v) f r f'
| does_nothing : forall f, vd_does kf vf (VUpdate []) f (Ok tt) f
| does_update : forall k v d f f1 r f2, vd_does kf vf (VSet k v) f (Ok tt) f1 ->
    vd_does kf vf (VUpdate d) f1 r f2 -> vd_does kf vf (VUpdate ((k, v) :: d)) f r f2
| does_stop : forall k v d f e f1, vd_does kf vf (VSet k v) f (Raise e) f1 ->
    vd_does kf vf (VUpdate ((k, v) :: d)) f (Raise e) f1.

(** The standard data types and their Python types. *)
Definition STANDARD_TYPES : list (string * ntype) :=
  [ ("http://www.w3.org/2001/XMLSchema#string", NTStr);
    ("http://www.w3.org/2001/XMLSchema#anyURI", NTStr);
    ("http://www.w3.org/2001/XMLSchema#integer", NTInt);
    ("http://www.w3.org/2001/XMLSchema#boolean", NTBool);
    ("http://www.w3.org/2001/XMLSchema#double", NTFloat);
    ("http://www.w3.org/2001/XMLSchema#date", NTDateTime);
    ("http://www.w3.org/2001/XMLSchema#dateTime", NTDateTime);
    ("http://www.w3.org/2001/XMLSchema#time", NTDateTime);
    ("http://www.w3.org/TR/2002/WD-xquery-operators-20020816#dayTimeDuration", NTTimeDelta);
    ("http://www.w3.org/TR/2002/WD-xquery-operators-20020816#yearMonthDuration", NTTimeDelta);
    ("urn:oasis:names:tc:xacml:1.0:data-type:x500Name", NTStr);
    ("urn:oasis:names:tc:xacml:1.0:data-type:rfc822Name", NTStr);
    ("http://www.w3.org/2001/XMLSchema#hexBinary", NTInt);
    ("http://www.w3.org/2001/XMLSchema#base64Binary", NTNotImplemented);
    ("urn:oasis:names:tc:xacml:2.0:data-type:ipAddress", NTStr);
    ("urn:oasis:names:tc:xacml:2.0:data-type:dnsName", NTStr) ].

(** The class for [uri] after one more addition. *)
Definition addition_effect (uri : string) (cur : option candidate)
    (o : native * candidate * bool) : option candidate :=
  match o with
  | (NStr id, CAttrClass c, overwrite) =>
      if String.eqb id uri then
        if overwrite then Some (CAttrClass c)
        else match cur with Some c0 => Some c0 | None => Some (CAttrClass c) end
      else cur
  | _ => cur
  end.
