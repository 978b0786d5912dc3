(** C84: custom data types. *)
From Verif Require Import DataTypes SpecUtils SpecRead SpecFinderThreads SpecDataTypes ReadFacts UtilsFacts FuncMapFacts2 DataTypesFacts.

(** Whatever was registered before, an attribute value is read with the class and the
    reader registered for its data type. *)
Theorem C84_value : forall os n dt, value_element n dt ->
  let E := env_of (dt_run os dt_init) in
  (class_after os dt (standard_class dt) = None -> read_value E n = Raise EXMLParseError) /\
  (forall c, class_after os dt (standard_class dt) = Some c ->
     (reader_after os dt (standard_reader dt) = None -> read_value E n = Raise EKeyError) /\
     (forall r, reader_after os dt (standard_reader dt) = Some r -> read_value E n = r n (mkAV c dt NNone))).
Proof.
  intros os n dt [Hn Hd] E. destruct (run_env os dt) as [Hc Hr].
  assert (He : expect "AttributeValue" n = Ok tt) by (apply expect_ok; [reflexivity|exact Hn]).
  assert (Hq : required n "DataType" = Ok dt) by (apply required_ok; exact Hd).
  unfold read_value. rewrite He, Hq. cbn [bind]. subst E. rewrite Hc, Hr. split.
  - intros ->. reflexivity.
  - intros c ->. split; [intros ->; reflexivity|intros r ->; reflexivity].
Qed.

(** Registering a reader is refused, without effect, unless it is given a string and a
    class of readers; otherwise it counts for this data type only, at once. *)
Theorem C84_add_reader : forall w id r,
  (forall k p, id = NStr k -> r = RReader p ->
     fst (dt_step w (DReader id r)) = Ok tt /\
     forall dt, get_dtreader dt (dt_readers (snd (dt_step w (DReader id r)))) =
                if String.eqb dt k then Ok (RReader p) else get_dtreader dt (dt_readers w)) /\
  ((forall k p, ~ (id = NStr k /\ r = RReader p)) ->
     dt_step w (DReader id r) = (Raise ETypeError, w)) /\
  dt_classes (snd (dt_step w (DReader id r))) = dt_classes w.
Proof.
  intros w id r. split; [|split].
  - intros k p -> ->. split; [reflexivity|]. intros dt. cbn. unfold get_dtreader, vd_getitem.
    rewrite dict_get_set. destruct (String.eqb dt k); reflexivity.
  - intros H. destruct w as [a b]. destruct id as [ |k| | | | | | ]; try reflexivity.
    destruct r as [p|i|i]; try reflexivity. destruct (H k p (conj eq_refl eq_refl)).
  - destruct w as [a b]. destruct id as [ |k| | | | | | ]; try reflexivity. destruct r; reflexivity.
Qed.

(** Without registrations only the data types whose values are strings can be read:
    the others raise TypeError. *)
Theorem C84_standard : forall n dt ty, value_element n dt -> In (dt, ty) STANDARD_TYPES ->
  let E := env_of dt_init in
  (xml_text n = None -> read_value E n = Raise EXMLParseError) /\
  (forall t, xml_text n = Some t ->
     (ty = NTStr -> exists c, ac_id c = dt /\ ac_type c = NTStr /\ read_value E n = Ok (mkAV c dt (NStr t))) /\
     (ty <> NTStr -> read_value E n = Raise ETypeError)).
Proof.
  intros n dt ty Hv Hi E. destruct (C84_value [] n dt Hv) as [_ H]. cbn [class_after reader_after dt_run fold_left] in H.
  assert (G : exists c, standard_class dt = Some c /\ ac_id c = dt /\ ac_type c = ty /\
                        standard_reader dt = Some default_dtreader).
  { cbn [STANDARD_TYPES In] in Hi.
    repeat (destruct Hi as [[= <- <-]|Hi]; [eexists; repeat split; reflexivity|]). destruct Hi. }
  destruct G as (c & G1 & G2 & G3 & G4). destruct (H c G1) as [_ Hr]. specialize (Hr _ G4).
  subst E. change (env_of dt_init) with (env_of (dt_run [] dt_init)). cbn [dt_run fold_left]. rewrite Hr.
  assert (Hx : el_text n = xml_text n) by (destruct n; [reflexivity|]; destruct Hv as [Hv _]; discriminate Hv).
  unfold default_dtreader. rewrite Hx. split.
  - intros ->. reflexivity.
  - intros t ->. unfold av_set_value. cbn [av_class av_dataType]. rewrite G3. split.
    + intros ->. exists c. repeat split; assumption.
    + intros Hn. clear - Hn Hi. cbn [STANDARD_TYPES In] in Hi.
      repeat (destruct Hi as [[= _ <-]|Hi]; [try reflexivity; destruct (Hn eq_refl)|]). destruct Hi.
Qed.

(** A reader of contents matters only to documents with values of its data type, there
    or in documents they refer to. *)
Theorem C84_local : forall os id r limit fetch fd n st,
  (forall d m, reaches fetch fd n d -> inside m d -> ~ value_element m id) ->
  read_doc limit (env_of (snd (dt_step (dt_run os dt_init) (DReader (NStr id) r)))) fetch fd n st =
  read_doc limit (env_of (dt_run os dt_init)) fetch fd n st.
Proof.
  intros os id r limit fetch fd n st H. set (w := dt_run os dt_init).
  assert (E1 : snd (dt_step w (DReader (NStr id) r)) = dt_run (os ++ [DReader (NStr id) r])%list dt_init).
  { unfold dt_run. rewrite fold_left_app. reflexivity. }
  apply doc_agree.
  - unfold env_of. cbn [re_cm]. rewrite (proj2 (proj2 (C84_add_reader w (NStr id) r))). reflexivity.
  - reflexivity.
  - intros d Hd m dt Hm Hv. rewrite E1. unfold w. rewrite !(fun os => proj2 (run_env os dt)).
    assert (Hn : String.eqb id dt = false).
    { destruct (String.eqb_spec id dt) as [->|]; [|reflexivity]. destruct (H d m Hd Hm Hv). }
    clear - Hn. generalize (standard_reader dt). induction os as [|o os IH]; intros cur.
    + cbn [app reader_after]. destruct r; [rewrite Hn|..]; reflexivity.
    + cbn [app]. destruct o as [k c ov|k p]; cbn [reader_after]; [apply IH|].
      destruct k; try apply IH. destruct p; apply IH.
Qed.

(** Instances. *)
Definition int_reader : dtreader := fun n v =>
  match el_text n with Some "42" => av_set_value v (NInt 42) | _ => Raise EXMLParseError end.
Definition int_value (s : string) : node :=
  Elem "{urn:oasis:names:tc:xacml:2.0:policy:schema:os}AttributeValue" [("DataType", xs "integer")] (Some s) [].
Example C84_case :
  value_element (int_value "42") (xs "integer") /\ In (xs "integer", NTInt) STANDARD_TYPES /\
  read_value (env_of dt_init) (int_value "42") = Raise ETypeError /\
  read_value (env_of (dt_run [DReader (NInt 3) (RReader int_reader); DReader (NStr (xs "integer")) (ROtherClass 0);
                              DReader (NStr (xs "integer")) (RReader int_reader)] dt_init)) (int_value "42")
  = Ok (mkAV IntegerAV (xs "integer") (NInt 42)).
Proof. split; [split; reflexivity|]. split; [right; right; left; reflexivity|]. split; reflexivity. Qed.
Example C84_class_case :
  let c := mkClass "Colour" [] "urn:colour" NTStr in
  let n := Elem "{u}AttributeValue" [("DataType", "urn:colour")] (Some "red") [] in
  value_element n "urn:colour" /\
  read_value (env_of dt_init) n = Raise EXMLParseError /\
  read_value (env_of (dt_run [DClass (NStr "urn:colour") (CAttrClass c) false] dt_init)) n = Raise EKeyError /\
  read_value (env_of (dt_run [DReader (NStr "urn:colour") (RReader default_dtreader);
                              DClass (NStr "urn:colour") (CAttrClass c) false] dt_init)) n
  = Ok (mkAV c "urn:colour" (NStr "red")).
Proof. repeat split; reflexivity. Qed.
(** The hypothesis of C84_local holds of a document without integers. *)
Example C84_local_case : forall fetch d m,
  let n := Elem "{u}Policy" [("PolicyId", "p")] None [Elem "{u}Target" [] None []; Comment "c"] in
  reaches fetch LocalFinder n d -> inside m d -> ~ value_element m (xs "integer").
Proof.
  intros fetch d m n Hr Hi [Hv Hd].
  assert (E : d = n) by (induction Hr as [|base d1 m1 r url d' _ _ _ _ Hf]; [reflexivity|discriminate Hf]).
  subst d. unfold n in Hi. inversion Hi as [|x k Hk Hi']; subst; [discriminate Hv|].
  destruct Hk as [<-|[]]. inversion Hi' as [|x k Hk Hi2]; subst; [discriminate Hv|]. destruct Hk.
Qed.

Print Assumptions C84_value.
Print Assumptions C84_add_reader.
Print Assumptions C84_standard.
Print Assumptions C84_local.
