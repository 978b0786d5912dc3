(** Theorems about pretty printing of element trees (C64). *)
From Coq Require Import Lia.
From Verif Require Import PrettyPrint SpecPretty SpecText TextFacts PrettyFacts.
Local Open Scope string_scope.

(** ** A document *)
Definition pp_map : list (string * string) :=
  [("http://www.w3.org/XML/1998/namespace", "xml"); ("http://www.w3.org/2001/XMLSchema", "xs")].
Definition pp_kid_ok : pnode :=
  PElem (expanded "urn:b" "child") [("x", "1"); (expanded "urn:c" "y", "2")]
    [(Some "b", "urn:b"); (Some "c", "urn:c"); (Some "a", "urn:a")] (Some "  some text ") (Some (lf ++ " ")) [].
Definition pp_doc : pnode :=
  PElem (expanded "urn:a" "root") [("id", "r")] [(Some "a", "urn:a")] (Some lf) None
    [pp_kid_ok; pp_kid_ok;
     PElem (expanded "urn:a" "last") [] [(Some "a", "urn:a")] None (Some (" end " ++ lf)) []].

Lemma pp_name : forall s, negb (String.eqb s "") && all_chars name_char s = true -> name_ok s.
Proof.
  intros s H. apply andb_true_iff in H. destruct H as [H1 H2]. split; [|exact H2].
  apply negb_true_iff, String.eqb_neq in H1. exact H1.
Qed.
Lemma pp_kid_printable : printable pp_kid_ok.
Proof.
  unfold pp_kid_ok. constructor; try (apply pp_name; reflexivity); try reflexivity.
  - repeat split; discriminate.
  - constructor; [|constructor; [|constructor]].
    + split; [left; split; [apply pp_name; reflexivity|discriminate]|reflexivity].
    + split; [right; exists "urn:c", "y"; split; [reflexivity|split; [repeat split; discriminate|apply pp_name; reflexivity]]|reflexivity].
  - repeat constructor; cbn; intuition discriminate.
  - intros k [].
  - intros [|? ?] k k' post H; discriminate H.
Qed.
Lemma pp_doc_printable : printable pp_doc.
Proof.
  unfold pp_doc. constructor; try (apply pp_name; reflexivity); try reflexivity.
  - repeat split; discriminate.
  - constructor; [|constructor].
    split; [left; split; [apply pp_name; reflexivity|discriminate]|reflexivity].
  - repeat constructor; cbn; intuition discriminate.
  - intros k [<-|[<-|[<-|[]]]]; (split; [|reflexivity]); try apply pp_kid_printable.
    constructor.
    + repeat split; discriminate.
    + apply pp_name; reflexivity.
    + constructor.
    + constructor.
    + exact I.
    + intros x [].
    + intros [|? ?] k k' post H; discriminate H.
  - intros pre k k' post H. destruct pre as [|a [|b [|c [|d pre]]]]; injection H; intros; subst; try (repeat constructor); discriminate.
Qed.
Lemma pp_map_usable : usable_map pp_map.
Proof.
  apply usable_list.
  - repeat constructor; cbn; intuition discriminate.
  - repeat constructor; discriminate.
Qed.

(** ** C64: what is printed reads back as the same document, up to white space *)
Theorem C64_reads_back : forall ns_map indent space e text m,
  usable_map ns_map -> printable e -> white indent -> white space ->
  pretty_print false ns_map indent space e = (Ok text, m) ->
  exists e', xml_read text = Some e' /\ alike e e'.
Proof. exact pretty_back_etree. Qed.

(** lxml: the prefixes are those of the elements. *)
Theorem C64_reads_back_lxml : forall prefixes ns_map indent space e text m,
  usable_map prefixes -> prefixes_agree prefixes e -> printable e -> white indent -> white space ->
  pretty_print true ns_map indent space e = (Ok text, m) ->
  exists e', xml_read text = Some e' /\ alike e e'.
Proof. exact pretty_back_lxml. Qed.

(** Printing what was read gives the same text again. *)
Theorem C64_stable : forall ns_map indent space e e',
  alike e e' -> pretty_print false ns_map indent space e' = pretty_print false ns_map indent space e.
Proof. intros ns_map indent space e e' H. symmetry. apply pretty_alike, H. Qed.

(** Printing succeeds if there are no comments and no more than 256 namespaces. *)
Theorem C64_succeeds : forall ns_map indent space e L,
  no_comments e -> NoDup (map fst ns_map) ->
  (forall u, In u (map fst ns_map) \/ In u (namespaces e) -> In u L) -> length L <= 256 ->
  exists text, pretty_print false ns_map indent space e = (Ok text, ns_map).
Proof.
  intros ns_map indent space e L Hc Hn Hi Hl.
  destruct (elem_fine_etree L e indent space [] Hl Hc (fun u Hu => Hi u (or_intror Hu))
              (mkPstate ns_map (map snd ns_map))) as (text & st' & E & _).
  - split; [exact Hn|]. split; [intros u Hu; apply Hi; left; exact Hu|]. cbn [ps_map ps_mapped]. apply map_length.
  - exists text. unfold pretty_print. rewrite E. reflexivity.
Qed.

Theorem C64_succeeds_lxml : forall ns_map indent space e,
  no_comments e -> knows_namespaces e ->
  exists text, pretty_print true ns_map indent space e = (Ok text, ns_map).
Proof.
  intros ns_map indent space e Hc Hk.
  destruct (elem_fine_lxml e indent space [] Hc Hk (mkPstate ns_map []) I) as (text & st' & E & _).
  exists text. unfold pretty_print. rewrite E. reflexivity.
Qed.

(** Otherwise TypeError for a comment, KeyError for a namespace without prefix. *)
Theorem C64_errors : forall lxml ns_map indent space e x m,
  pretty_print lxml ns_map indent space e = (Raise x, m) ->
  (x = ETypeError /\ ~ no_comments e) \/ x = EKeyError.
Proof.
  intros lxml ns_map indent space e x m H. unfold pretty_print in H.
  destruct (print_elem _ _ _ _ _ _) as [[t|y] st] eqn:E; [discriminate|]. injection H as <- _.
  exact (elem_fails lxml e indent space [] _ _ _ E).
Qed.

(** The registered prefixes of xml.etree are as before after printing, and are kept
    even if it fails. *)
Theorem C64_map : forall lxml ns_map indent space e,
  (forall text, fst (pretty_print lxml ns_map indent space e) = Ok text ->
     snd (pretty_print lxml ns_map indent space e) = ns_map) /\
  (forall u p, dict_get u ns_map = Some p ->
     dict_get u (snd (pretty_print lxml ns_map indent space e)) = Some p).
Proof.
  intros lxml ns_map indent space e. unfold pretty_print.
  destruct (elem_steps lxml e indent space [] (mkPstate ns_map (if lxml then [] else map snd ns_map))) as [_ G].
  destruct (print_elem _ _ _ _ _ _) as [[t|y] st]; cbn [fst snd] in *; split; auto; discriminate.
Qed.

Example C64_printed : fst (pretty_print false pp_map "" SPACE pp_doc) = Ok
  ("<ns0:root xmlns:ns0=""urn:a"" id=""r"">" ++ lf ++
   "    <ns2:child xmlns:ns2=""urn:b"" x=""1"" xmlns:ns1=""urn:c"" ns1:y=""2"">some text</ns2:child>" ++ lf ++
   "    <ns2:child xmlns:ns2=""urn:b"" x=""1"" xmlns:ns1=""urn:c"" ns1:y=""2"">some text</ns2:child>" ++ lf ++
   "    <ns0:last></ns0:last>" ++ lf ++ "end</ns0:root>")%string.
Proof. reflexivity. Qed.
Example C64_example : exists text e', pretty_print false pp_map "" SPACE pp_doc = (Ok text, pp_map) /\
  xml_read text = Some e' /\ alike pp_doc e'.
Proof.
  destruct (pretty_print false pp_map "" SPACE pp_doc) as [[text|x] m] eqn:E; [|discriminate E].
  destruct (C64_reads_back pp_map "" SPACE pp_doc text m pp_map_usable pp_doc_printable) as (e' & H1 & H2);
    try reflexivity; [exact E|].
  exists text, e'. split; [|split; assumption]. f_equal. destruct (C64_map false pp_map "" SPACE pp_doc) as [K _].
  rewrite E in K. apply (K text eq_refl).
Qed.
Example C64_example_lxml : exists text e', pretty_print true pp_map "" SPACE pp_doc = (Ok text, pp_map) /\
  xml_read text = Some e' /\ alike pp_doc e'.
Proof.
  destruct (pretty_print true pp_map "" SPACE pp_doc) as [[text|x] m] eqn:E; [|discriminate E].
  destruct (C64_reads_back_lxml [("urn:a", "a"); ("urn:b", "b"); ("urn:c", "c")] pp_map "" SPACE pp_doc text m)
    as (e' & H1 & H2); try reflexivity; try exact E; try exact pp_doc_printable.
  - apply usable_list; [repeat constructor; cbn; intuition discriminate|repeat constructor; discriminate].
  - assert (F : forall l m, (forall p u, In (p, u) l -> dict_get u m = Some (match p with Some p => p | None => "None" end)) ->
        forall u p q, find (fun e => String.eqb (snd e) u) l = Some (p, q) ->
        dict_get u m = Some (match p with Some p => p | None => "None" end)).
    { intros l m0 Hl u p q Hf. apply find_some in Hf. destruct Hf as [F1 F2]. cbn [snd] in F2.
      apply String.eqb_eq in F2. subst q. apply Hl, F1. }
    constructor.
    + apply F. intros p u [K|[]]; injection K as <- <-; reflexivity.
    + intros k [<-|[<-|[<-|[]]]]; constructor; try (intros x []); apply F; intros p u K; cbn [In] in K;
        repeat (destruct K as [K|K]; [injection K as <- <-; reflexivity|]); contradiction.
  - exists text, e'. split; [|split; assumption]. f_equal. destruct (C64_map true pp_map "" SPACE pp_doc) as [K _].
    rewrite E in K. apply (K text eq_refl).
Qed.

Example C64_succeeds_example : no_comments pp_doc /\ NoDup (map fst pp_map) /\
  length (map fst pp_map ++ namespaces pp_doc)%list <= 256 /\ knows_namespaces pp_doc.
Proof.
  split; [|split; [|split]].
  - constructor. intros k [<-|[<-|[<-|[]]]]; constructor; intros x [].
  - repeat constructor; cbn; intuition discriminate.
  - apply Nat.leb_le. reflexivity.
  - assert (G : get_ns (expanded "urn:a" "root") = "urn:a" /\ get_ns (expanded "urn:a" "last") = "urn:a" /\
                get_ns (expanded "urn:b" "child") = "urn:b" /\ get_ns (expanded "urn:c" "y") = "urn:c" /\
                get_ns "x" = "" /\ get_ns "id" = "") by (repeat split; reflexivity).
    destruct G as (G1 & G2 & G3 & G4 & G5 & G6).
    assert (K : knows_namespaces pp_kid_ok).
    { constructor; [|intros x []]. intros u [->|[K H]].
      - rewrite G3. exists (Some "b"). left. reflexivity.
      - cbn [map fst In] in K. rewrite G4, G5 in K. destruct K as [<-|[<-|[]]]; [congruence|].
        exists (Some "c"). right. left. reflexivity. }
    constructor.
    + intros u [->|[H1 H2]]; [rewrite G1; exists (Some "a"); left; reflexivity|].
      cbn [map fst In] in H1. rewrite G6 in H1. destruct H1 as [<-|[]]. congruence.
    + intros k [<-|[<-|[<-|[]]]]; try exact K. constructor; [|intros x []].
      intros u [->|[[] _]]. rewrite G2. exists (Some "a"). left. reflexivity.
Qed.
Example C64_errors_example :
  fst (pretty_print false pp_map "" SPACE (PElem (expanded "urn:a" "r") [] [] None None [PComment None None])) = Raise ETypeError /\
  fst (pretty_print true pp_map "" SPACE (PElem (expanded "urn:a" "r") [] [(Some "b", "urn:b")] None None [])) = Raise EKeyError.
Proof. split; reflexivity. Qed.

(** ** What the printer does not keep *)
(** Values and texts are not escaped: a quote ends an attribute. *)
Theorem C64_quotes_refuted : exists e e' text, pretty_print false pp_map "" SPACE e = (Ok text, pp_map) /\
  xml_read text = Some e' /\ ~ alike e e'.
Proof.
  exists (PElem (expanded "urn:a" "r") [("x", "1" ++ quote ++ " y=" ++ quote ++ "2")] [] None None []).
  eexists _, _. split; [reflexivity|]. split; [reflexivity|]. intros H. inversion H.
Qed.
(** ... and text can become an element. *)
Theorem C64_markup_refuted : exists e e' text, pretty_print false pp_map "" SPACE e = (Ok text, pp_map) /\
  xml_read text = Some e' /\ ~ alike e e'.
Proof.
  exists (PElem (expanded "urn:a" "r") [] [] (Some "<ns0:grant></ns0:grant>") None []).
  eexists _, _. split; [reflexivity|]. split; [reflexivity|]. intros H. inversion H as [? ? ? ? ? ? ? ? ? ? H1 H2]. inversion H2.
Qed.
(** A tag without namespace is printed with a declaration that XML does not allow. *)
Theorem C64_no_namespace_refuted : exists e text, pretty_print false pp_map "" SPACE e = (Ok text, pp_map) /\
  xml_read text = None.
Proof.
  exists (PElem "r" [] [] None None []). eexists. split; [reflexivity|]. reflexivity.
Qed.
(** Text between children is lost. *)
Theorem C64_mixed_refuted : exists e e' text, pretty_print false pp_map "" SPACE e = (Ok text, pp_map) /\
  xml_read text = Some e' /\ ~ alike e e'.
Proof.
  exists (PElem (expanded "urn:a" "r") [] [] None None
            [PElem (expanded "urn:a" "b") [] [] None (Some "between") [];
             PElem (expanded "urn:a" "b") [] [] None None []]).
  eexists _, _. split; [reflexivity|]. split; [reflexivity|].
  intros H. inversion H as [? ? ? ? ? ? ? ? ? ? Ha Hb]; subst. inversion Hb as [|? ? ? ? [_ Hc] _]; subst. destruct Hc as (s & H1 & H2). apply trimmed_strip in H1, H2. rewrite <- H2 in H1. discriminate H1.
Qed.
(** lxml: a namespace that was declared outside is not declared again although its
    prefix means something else by now. *)
Theorem C64_redeclared_refuted : exists e e' text, knows_namespaces e /\
  pretty_print true pp_map "" SPACE e = (Ok text, pp_map) /\ xml_read text = Some e' /\ ~ alike e e'.
Proof.
  exists (PElem (expanded "urn:a" "r") [] [(Some "p", "urn:a")] None None
            [PElem (expanded "urn:b" "c") [] [(Some "p", "urn:b")] None None
               [PElem (expanded "urn:a" "g") [] [(Some "p", "urn:a")] None None []]]).
  eexists _, _. split.
  { repeat (constructor; [intros u [->|[[] _]]; eexists; left; reflexivity|intros k [<-|[]]]).
    constructor; [intros u [->|[[] _]]; eexists; left; reflexivity|intros k []]. }
  split; [reflexivity|]. split; [reflexivity|].
  intros H. inversion H as [? ? ? ? ? ? ? ? ? ? Ha Hb]; subst. inversion Hb as [|? ? ? ? [Hc _] _]; subst.
  inversion Hc as [? ? ? ? ? ? ? ? ? ? Hd He]; subst. inversion He as [|? ? ? ? [Hf _] _]; subst. inversion Hf.
Qed.
(** Printing that fails leaves prefixes behind. *)
Theorem C64_map_refuted : exists e, snd (pretty_print false pp_map "" SPACE e) <> pp_map.
Proof.
  exists (PElem (expanded "urn:a" "r") [] [] None None [PComment None None]). discriminate.
Qed.

Print Assumptions C64_reads_back.
Print Assumptions C64_reads_back_lxml.
Print Assumptions C64_stable.
Print Assumptions C64_succeeds.
Print Assumptions C64_succeeds_lxml.
Print Assumptions C64_errors.
Print Assumptions C64_map.
Print Assumptions C64_quotes_refuted.
Print Assumptions C64_markup_refuted.
Print Assumptions C64_no_namespace_refuted.
Print Assumptions C64_mixed_refuted.
Print Assumptions C64_redeclared_refuted.
Print Assumptions C64_map_refuted.
