(** C80: XPath selection from the request document. *)
From Verif Require Import XPathSelect SpecXPath XPathFacts Eval EvalFacts3 Sample PropertiesAttr.
From Coq Require Import Lia.
Open Scope string_scope.

Definition xp_doc : node :=
  Elem "Request" [] None
    [Elem "{urn:x}Resource" [] None
       [Elem "{urn:x}Item" [] (Some "one") [Elem "{urn:x}Item" [] (Some "two") []];
        Elem "Other" [] (Some "three") [];
        Comment "note"];
     Elem "{urn:x}Item" [] (Some "four") []].
Definition xp_path : path := [(Child, Some "{urn:x}Resource"); (Descendant, Some "{urn:x}Item")].

(** The texts of the elements to which the path leads down from the context element, and of no
    others; each place once if there is at most one "//". *)
Theorem C80_selected : forall root p s, path_ok p -> written p s ->
  exists found : list (list nat * node),
    select_text root s = Some (Ok (map (fun f => text_at (snd f)) found)) /\
    (forall pos n, In (pos, n) found <-> place root pos = Some n /\ leads p (tags_to root pos)) /\
    (descents p <= 1 -> NoDup (map fst found)).
Proof. exact select_places. Qed.
Example C80_selected_example :
  path_ok xp_path /\ descents xp_path <= 1 /\
  written xp_path "/{urn:x}Resource//{urn:x}Item" /\
  select_text xp_doc "/{urn:x}Resource//{urn:x}Item" = Some (Ok [Some "one"; Some "two"]).
Proof.
  split; [|split; [cbn; lia|split]].
  - intros a t [H|[H|[]]]; inversion H.
    + apply (Tag_qualified "urn:x" "Resource"); [repeat split; discriminate|repeat split].
    + apply (Tag_qualified "urn:x" "Item"); [repeat split; discriminate|repeat split].
  - apply (W_absolute xp_path). discriminate.
  - reflexivity.
Qed.

(** The three ways to write a path mean the same, also those that begin with "/": every path is
    taken from the context element. *)
Theorem C80_relative : forall root rest, select_text root ("/" ++ rest) = select_text root ("./" ++ rest).
Proof.
  intros root rest. unfold select_text, rel_path. cbn [append]. rewrite start_slash. reflexivity.
Qed.
Theorem C80_same : forall root t p s s', path_ok ((Child, t) :: p) ->
  written ((Child, t) :: p) s -> written ((Child, t) :: p) s' -> select_text root s = select_text root s'.
Proof.
  intros root t p s s' Hp H H'. unfold select_text.
  rewrite (findall_path root _ s Hp H), (findall_path root _ s' Hp H'). reflexivity.
Qed.
Example C80_same_example :
  written [(Child, Some "Other")] "/Other" /\ written [(Child, Some "Other")] "./Other" /\
  written [(Child, Some "Other")] "Other" /\ path_ok [(Child, Some "Other")].
Proof.
  split; [apply (W_absolute [(Child, Some "Other")]); discriminate|].
  split; [apply (W_dot [(Child, Some "Other")])|]. split; [apply (W_relative (Some "Other") [])|].
  intros a t [H|[]]. inversion H. apply Tag_plain. repeat split.
Qed.

(** So an absolute path does not mean what XPath says: the context element itself is never selected. *)
Theorem C80_absolute_refuted : exists root, select_text root "/Request" = Some (Ok []) /\
  match root with Elem tag _ _ _ => tag = "Request" | Comment _ => False end.
Proof. exists xp_doc. split; reflexivity. Qed.
Theorem C80_never_context : forall root p s found, path_ok p -> p <> [] -> written p s ->
  (forall pos n, In (pos, n) found <-> place root pos = Some n /\ leads p (tags_to root pos)) ->
  forall n, ~ In ([], n) found.
Proof.
  intros root p s found Hp Hne Hw Hf n H. apply Hf in H. destruct H as [_ H]. cbn in H.
  inversion H as [E1 E2|? ? ? ? ? ? E1 E2|? ? b ? ? ? ? E1 E2]; [congruence|].
  destruct b; discriminate.
Qed.

(** With two "//" one element can be given twice. *)
Theorem C80_twice_refuted : exists root p s, path_ok p /\ written p s /\
  select_text root s = Some (Ok [Some "x"; Some "x"]) /\
  forall pos pos' n n', place root pos = Some n -> place root pos' = Some n' ->
    leads p (tags_to root pos) -> leads p (tags_to root pos') -> pos = pos'.
Proof.
  pose (root := Elem "r" [] None [Elem "a" [] None [Elem "a" [] None [Elem "b" [] (Some "x") []]]]).
  pose (p := [(Descendant, Some "a"); (Descendant, Some "b")]).
  exists root, p, "//a//b".
  assert (Hp : path_ok p).
  { intros a t [H|[H|[]]]; inversion H; apply Tag_plain; repeat split. }
  split; [exact Hp|]. split; [apply (W_absolute p); discriminate|]. split; [reflexivity|].
  assert (K : forall pos n, place root pos = Some n -> leads p (tags_to root pos) -> pos = [0; 0; 0]).
  { intros pos n H L. destruct (select_places root p "//a//b" Hp) as (found & E & F & _).
    { apply (W_absolute p). discriminate. }
    assert (L' : exists b, tags_to root pos = (b ++ [Some "b"])%list).
    { inversion L as [| |t q b tag tags Ha Hl E1 E2]; subst. inversion Hl as [| |t' q' b' tag' tags' Ha' Hl' E1' E2']; subst.
      inversion Hl'; subst. cbn in Ha'. subst tag'. exists (b ++ tag :: b')%list. rewrite <- app_assoc. reflexivity. }
    destruct L' as [b L'].
    destruct pos as [|[|i] pos]; [destruct b; discriminate| |destruct i; discriminate].
    destruct pos as [|[|i] pos].
    - cbn in L'. destruct b as [|? [|]]; discriminate.
    - destruct pos as [|[|i] pos].
      + cbn in L'. destruct b as [|? [|? []]]; discriminate.
      + destruct pos as [|i pos]; [reflexivity|]. cbn in H. destruct i; discriminate.
      + cbn in H. destruct i; discriminate.
    - cbn in H. destruct i; discriminate. }
  intros pos pos' n n' H H' L L'. rewrite (K _ _ H L), (K _ _ H' L'). reflexivity.
Qed.
(** Nor are the elements given in document order. *)
Theorem C80_order_refuted :
  select_text (Elem "r" [] None [Elem "a" [] None [Elem "a" [] None [Elem "b" [] (Some "first") []];
                                                    Elem "b" [] (Some "second") []]]) "//a/b"
  = Some (Ok [Some "second"; Some "first"]).
Proof. reflexivity. Qed.

(** An attribute selector with this selection, for strings: the bag has one value for each place, and
    a place without text makes the evaluation fail. *)
Definition text_native (t : option string) : native := match t with Some s => NStr s | None => NNone end.
Theorem C80_bag : forall E sl r dt cls k root p s,
  rq_selector r = Some k -> sl_path sl = Some s -> sl_mustBePresent sl <> Some true ->
  sl_dataType sl = Some dt -> dict_get dt (en_classes E) = Some cls -> ac_type cls = NTStr ->
  path_ok p -> written p s ->
  (forall texts, select_text root s = Some (Ok texts) -> en_xpath E r (Some s) = Ok (map text_native texts)) ->
  (forall pos n, place root pos = Some n -> leads p (tags_to root pos) -> text_at n <> None) ->
  exists found : list (list nat * string),
    eval_selector E sl (CtxRequest r) = Ok (PBag (Some cls) (map (fun f => mkAV cls dt (NStr (snd f))) found)) /\
    (forall pos t, In (pos, t) found <->
       exists n, place root pos = Some n /\ leads p (tags_to root pos) /\ text_at n = Some t) /\
    (descents p <= 1 -> NoDup (map fst found)).
Proof.
  intros E sl r dt cls k root p s H1 H2 H3 H4 H5 H6 Hp Hw Hx Hn.
  destruct (select_places root p s Hp Hw) as (found & A & B & C). specialize (Hx _ A).
  assert (T : forall f, In f found -> exists t, text_at (snd f) = Some t).
  { intros [q m] Hf. apply B in Hf. destruct Hf as [F1 F2]. cbn [snd].
    destruct (text_at m) as [t|] eqn:X; [eauto|]. exfalso. apply (Hn q m F1 F2 X). }
  exists (map (fun f => (fst f, match text_at (snd f) with Some t => t | None => "" end)) found).
  split; [|split].
  - rewrite <- H2 in Hx. destruct (C19_selector_texts E sl r dt cls k _ H1 H4 H5 Hx) as [K _].
    rewrite K.
    + do 2 f_equal. rewrite !map_map. apply map_ext_in. intros f Hf. cbn [snd].
      destruct (T f Hf) as [t ->]. reflexivity.
    + rewrite map_map. intros t Ht. apply in_map_iff in Ht. destruct Ht as (f & <- & Hf).
      destruct (T f Hf) as [t ->]. rewrite H6. reflexivity.
    + right. exact H3.
  - intros pos t. rewrite in_map_iff. split.
    + intros ([q m] & E1 & Hf). pose proof (T _ Hf) as [t' Ht]. apply B in Hf. cbn [fst snd] in *.
      rewrite Ht in E1. exists m. assert (pos = q /\ t = t') as [-> ->] by (split; congruence). tauto.
    + intros (n & F1 & F2 & F3). exists (pos, n). cbn [fst snd]. rewrite F3. split; [reflexivity|].
      apply B. auto.
  - rewrite map_map. cbn [fst]. exact C.
Qed.
Theorem C80_no_text : forall E sl r dt cls k root p s pos n,
  rq_selector r = Some k -> sl_path sl = Some s ->
  sl_dataType sl = Some dt -> dict_get dt (en_classes E) = Some cls -> ac_type cls = NTStr ->
  path_ok p -> written p s ->
  (forall texts, select_text root s = Some (Ok texts) -> en_xpath E r (Some s) = Ok (map text_native texts)) ->
  place root pos = Some n -> leads p (tags_to root pos) -> text_at n = None ->
  eval_selector E sl (CtxRequest r) = Raise ETypeError.
Proof.
  intros E sl r dt cls k root p s pos n H1 H2 H4 H5 H6 Hp Hw Hx P L N.
  destruct (select_places root p s Hp Hw) as (found & A & B & C). specialize (Hx _ A).
  rewrite <- H2 in Hx. destruct (C19_selector_texts E sl r dt cls k _ H1 H4 H5 Hx) as [_ K]. apply K.
  exists NNone. split; [|rewrite H6; discriminate]. rewrite map_map. apply in_map_iff. exists (pos, n).
  split; [cbn [snd]; rewrite N; reflexivity|]. apply B. auto.
Qed.

(** With lxml: elements give their text, strings themselves, in the order of XPath; a path that begins
    with "/" is evaluated as "./...". *)
Theorem C80_lxml : forall etxpath root path items,
  etxpath (if startswith "/" path then "." ++ path else path) root = Ok items ->
  exists texts, select_text_lxml etxpath root path = Ok texts /\
    Forall2 (fun item t => match item with XElem n => t = text_at n | XString s => t = Some s end) items texts.
Proof.
  intros etxpath root path items H. unfold select_text_lxml, rel_path. rewrite H. cbn [bind]. eexists. split; [reflexivity|].
  clear H. induction items as [|i items IH]; cbn [map]; constructor; [|exact IH].
  destruct i; reflexivity.
Qed.
Definition xp_env : env :=
  mkEnv sF STD_CLASS_MAP spip (fun _ p =>
    match p with
    | Some s => match select_text xp_doc s with Some (Ok ts) => Ok (map text_native ts) | _ => Raise EValueError end
    | None => Raise EAttributeError
    end).
Example C80_bag_example :
  eval_selector xp_env (mkSelector (Some "/{urn:x}Resource//{urn:x}Item") (Some (xs "string")) None) (CtxRequest sreq_pip)
  = Ok (PBag (Some StringAV) [mkAV StringAV (xs "string") (NStr "one"); mkAV StringAV (xs "string") (NStr "two")]) /\
  rq_selector sreq_pip <> None /\
  (forall texts, select_text xp_doc "/{urn:x}Resource//{urn:x}Item" = Some (Ok texts) ->
     en_xpath xp_env sreq_pip (Some "/{urn:x}Resource//{urn:x}Item") = Ok (map text_native texts)).
Proof.
  split; [vm_compute; reflexivity|]. split; [discriminate|].
  intros texts H. cbn [xp_env en_xpath]. rewrite H. reflexivity.
Qed.

Print Assumptions C80_selected.
Print Assumptions C80_relative.
Print Assumptions C80_same.
Print Assumptions C80_absolute_refuted.
Print Assumptions C80_never_context.
Print Assumptions C80_twice_refuted.
Print Assumptions C80_order_refuted.
Print Assumptions C80_bag.
Print Assumptions C80_no_text.
Print Assumptions C80_lxml.
