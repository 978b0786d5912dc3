(** Soundness and completeness of identifier resolution. *)
From Verif Require Import FuncMap SpecFuncMap StringFacts StateFacts FuncMapFacts.
From Coq Require Import Lia.

(** ** All characters *)
Definition all_chars : list ascii := map ascii_of_nat (seq 0 256).

Lemma all_chars_complete : forall c, In c all_chars.
Proof.
  intros c. unfold all_chars. apply in_map_iff. exists (nat_of_ascii c).
  split; [apply ascii_nat_embedding|]. apply in_seq. pose proof (nat_ascii_bounded c). lia.
Qed.

Lemma check_chars : forall P : ascii -> bool,
  forallb P all_chars = true -> forall c, P c = true.
Proof.
  intros P H c. rewrite forallb_forall in H. apply H, all_chars_complete.
Qed.

(** ** Character-wise maps *)
Fixpoint smap (g : ascii -> ascii) (s : string) : string :=
  match s with "" => "" | String c s' => String (g c) (smap g s') end.

Lemma smap_app : forall g a b, smap g (a ++ b) = (smap g a ++ smap g b)%string.
Proof. induction a as [|c a IH]; intros b; simpl; [reflexivity|rewrite IH; reflexivity]. Qed.

Lemma smap_length : forall g s, String.length (smap g s) = String.length s.
Proof. induction s as [|c s IH]; simpl; [reflexivity|rewrite IH; reflexivity]. Qed.

Lemma lower_smap : forall s, py_lower s = smap ascii_lower s.
Proof. induction s as [|c s IH]; simpl; [reflexivity|rewrite IH; reflexivity]. Qed.

Lemma smap_smap : forall f g s, smap f (smap g s) = smap (fun c => f (g c)) s.
Proof. induction s as [|c s IH]; simpl; [reflexivity|rewrite IH; reflexivity]. Qed.

Lemma smap_id_on : forall x y s, has_char x s = false ->
  smap (fun c => if Ascii.eqb c x then y else c) s = s.
Proof.
  induction s as [|c s IH]; intros H; simpl in *; [reflexivity|].
  apply orb_false_iff in H. destruct H as [Hc Hs]. rewrite IH by exact Hs.
  rewrite Ascii.eqb_sym, Hc. reflexivity.
Qed.

Lemma join_split_replace : forall x y s,
  py_join (String y "") (py_split (String x "") s) =
  smap (fun c => if Ascii.eqb c x then y else c) s.
Proof.
  intros x y s. remember (String.length s) as k eqn:Hk.
  assert (Hle : String.length s <= k) by lia. clear Hk. revert s Hle.
  induction k as [|k IH]; intros s Hle; destruct (has_char x s) eqn:E.
  - destruct s; [discriminate|simpl in Hle; lia].
  - rewrite split_char_none by exact E. simpl. symmetry. apply smap_id_on, E.
  - apply has_char_split in E. destruct E as (a & b & -> & Ha).
    rewrite split_char_app by exact Ha.
    assert (Hb : String.length b <= k) by (rewrite app_length_s in Hle; simpl in Hle; lia).
    specialize (IH b Hb). destruct (py_split (String x "") b) as [|p ps] eqn:Eb.
    + exfalso. apply (py_split_not_nil _ _ _ Eb).
    + cbn [py_join]. cbn [py_join] in IH. rewrite IH, smap_app. cbn [smap].
      rewrite Ascii.eqb_refl, (smap_id_on x y a Ha). reflexivity.
  - rewrite split_char_none by exact E. simpl. symmetry. apply smap_id_on, E.
Qed.

(** The module name for the part [r] of a function name. *)
Definition gmod (c : ascii) : ascii := ascii_lower (if Ascii.eqb c "-" then "_" else c).
Definition norm (r : string) : string := smap gmod r.

Lemma norm_spec : forall r, py_lower (py_join "_" (py_split "-" r)) = norm r.
Proof.
  intros r. rewrite lower_smap, (join_split_replace "-" "_" r), smap_smap. reflexivity.
Qed.

Lemma norm_colon : forall r, has_char ":" (norm r) = has_char ":" r.
Proof.
  assert (Hc : forall c, Bool.eqb (Ascii.eqb ":" (gmod c)) (Ascii.eqb ":" c) = true).
  { apply check_chars. vm_compute. reflexivity. }
  unfold norm. induction r as [|c r IH]; [reflexivity|].
  cbn [smap has_char]. rewrite IH. f_equal. apply eqb_prop, Hc.
Qed.

(** ** Strings up to case, hyphens and underscores *)
Definition sqc (c : ascii) : string :=
  if Ascii.eqb c "-" || Ascii.eqb c "_" then "" else String (ascii_lower c) "".
Fixpoint sq (s : string) : string :=
  match s with "" => "" | String c s' => (sqc c ++ sq s')%string end.

Lemma sq_app : forall a b, sq (a ++ b) = (sq a ++ sq b)%string.
Proof.
  induction a as [|c a IH]; intros b; simpl; [reflexivity|]. rewrite IH, app_assoc_s. reflexivity.
Qed.

Lemma sq_norm : forall r, sq (norm r) = sq r.
Proof.
  assert (Hc : forall c, String.eqb (sqc (gmod c)) (sqc c) = true).
  { apply check_chars. vm_compute. reflexivity. }
  unfold norm. induction r as [|c r IH]; [reflexivity|]. cbn [smap sq].
  rewrite IH. f_equal. apply String.eqb_eq, Hc.
Qed.

Lemma sq_cap : forall s t, py_capitalize_first s = Ok t -> sq t = sq s.
Proof.
  assert (Hc : forall c, String.eqb (sqc (ascii_upper c)) (sqc c) = true).
  { apply check_chars. vm_compute. reflexivity. }
  intros [|c s] t H; simpl in H; [discriminate|]. injection H as <-. cbn [sq].
  f_equal. apply String.eqb_eq, Hc.
Qed.

Fixpoint sq_list (l : list string) : string :=
  match l with [] => "" | s :: r => (sq s ++ sq_list r)%string end.

Lemma sq_join : forall sep l, sq sep = "" -> sq (py_join sep l) = sq_list l.
Proof.
  intros sep l Hs. induction l as [|x l IH]; [reflexivity|].
  destruct l as [|y l]; [simpl; rewrite app_empty_r; reflexivity|].
  change (py_join sep (x :: y :: l)) with (x ++ sep ++ py_join sep (y :: l))%string.
  rewrite !sq_app, IH, Hs. reflexivity.
Qed.

Lemma mapM_cap_sq : forall l l', mapM py_capitalize_first l = Ok l' -> sq_list l' = sq_list l.
Proof.
  induction l as [|x l IH]; intros l' H; cbn [mapM] in H; [injection H as <-; reflexivity|].
  destruct (py_capitalize_first x) as [y|e] eqn:Ex; cbn [bind] in H; [|discriminate].
  change ((fix go (l0 : list string) : res (list string) :=
           match l0 with
           | [] => Ok []
           | x0 :: xs => let* y0 := py_capitalize_first x0 in let* ys := go xs in Ok (y0 :: ys)
           end) l) with (mapM py_capitalize_first l) in H.
  destruct (mapM py_capitalize_first l) as [ys|e] eqn:El; cbn [bind] in H; [|discriminate].
  injection H as <-. cbn [sq_list]. rewrite (sq_cap _ _ Ex), (IH ys eq_refl). reflexivity.
Qed.

Lemma camel_sq : forall s t, camel (py_split "-" s) = Ok t -> sq t = sq s.
Proof.
  intros s t H. unfold camel in H.
  destruct (mapM py_capitalize_first (py_split "-" s)) as [l|e] eqn:El; cbn [bind] in H; [|discriminate].
  injection H as <-. rewrite sq_join by reflexivity. rewrite (mapM_cap_sq _ _ El).
  rewrite <- (sq_join "-" (py_split "-" s)) by reflexivity. rewrite (join_split "-" "" s). reflexivity.
Qed.

Definition ends_with (s t : string) : bool :=
  String.eqb (str_drop (String.length s - String.length t) s) t.

Lemma ends_with_app : forall a t, ends_with (a ++ t) t = true.
Proof.
  intros a t. unfold ends_with. rewrite app_length_s.
  replace (String.length a + String.length t - String.length t) with (String.length a) by lia.
  rewrite str_drop_app. apply String.eqb_refl.
Qed.

(** ** Inversion of function_type *)
Lemma function_type_inv : forall cm suffix id c,
  function_type cm suffix id = Ok c ->
  exists name typePart typeName0 typeName uri,
    py_last (py_split ":" id) = Ok name /\
    py_first (py_split suffix name) = Ok typePart /\
    py_capitalize_first typePart = Ok typeName0 /\
    sq typeName = sq typePart /\
    (has_char "-" typeName0 = false -> typeName = typeName0) /\
    (dict_get typeName TYPE_URI_MAP = Some uri \/
     (dict_get typeName TYPE_URI_MAP = None /\
      exists n, dict_get typePart SPECIAL_TYPE_MAP = Some n /\ dict_get n TYPE_URI_MAP = Some uri)) /\
    dict_get uri cm = Some c.
Proof.
  intros cm suffix id c H. unfold function_type in H.
  destruct (py_last (py_split ":" id)) as [name|e] eqn:E1; cbn [bind] in H; [|discriminate].
  destruct (py_first (py_split suffix name)) as [typePart|e] eqn:E2; cbn [bind] in H; [|discriminate].
  destruct (py_capitalize_first typePart) as [tn0|e] eqn:E3; cbn [bind] in H; [|discriminate].
  destruct (has_char "-" tn0) eqn:E4.
  - destruct (camel (py_split "-" tn0)) as [tn|e] eqn:E5; cbn [bind] in H; [|discriminate].
    destruct (dict_get tn TYPE_URI_MAP) as [u|] eqn:E6; cbn [bind] in H.
    + destruct (dict_get u cm) as [c'|] eqn:E7; [|discriminate]. injection H as <-.
      exists name, typePart, tn0, tn, u. repeat (split; [assumption || reflexivity|]).
      split; [rewrite (camel_sq _ _ E5); apply sq_cap, E3|]. split; [congruence|]. auto.
    + destruct (dict_get typePart SPECIAL_TYPE_MAP) as [n|] eqn:E7; cbn [bind] in H; [|discriminate].
      destruct (dict_get n TYPE_URI_MAP) as [u|] eqn:E8; cbn [bind] in H; [|discriminate].
      destruct (dict_get u cm) as [c'|] eqn:E9; [|discriminate]. injection H as <-.
      exists name, typePart, tn0, tn, u. repeat (split; [assumption || reflexivity|]).
      split; [rewrite (camel_sq _ _ E5); apply sq_cap, E3|]. split; [congruence|].
      split; [right; split; [exact E6|exists n; auto]|exact E9].
  - cbn [bind] in H.
    destruct (dict_get tn0 TYPE_URI_MAP) as [u|] eqn:E6; cbn [bind] in H.
    + destruct (dict_get u cm) as [c'|] eqn:E7; [|discriminate]. injection H as <-.
      exists name, typePart, tn0, tn0, u. repeat (split; [assumption || reflexivity|]).
      split; [apply sq_cap, E3|]. split; [reflexivity|]. auto.
    + destruct (dict_get typePart SPECIAL_TYPE_MAP) as [n|] eqn:E7; cbn [bind] in H; [|discriminate].
      destruct (dict_get n TYPE_URI_MAP) as [u|] eqn:E8; cbn [bind] in H; [|discriminate].
      destruct (dict_get u cm) as [c'|] eqn:E9; [|discriminate]. injection H as <-.
      exists name, typePart, tn0, tn0, u. repeat (split; [assumption || reflexivity|]).
      split; [apply sq_cap, E3|]. split; [reflexivity|].
      split; [right; split; [exact E6|exists n; auto]|exact E9].
Qed.

Lemma dict_get_in : forall V k (v : V) d, dict_get k d = Some v -> In (k, v) d.
Proof.
  induction d as [|[k' v'] d IH]; intros H; simpl in H; [discriminate|].
  destruct (String.eqb k k') eqn:E.
  - apply String.eqb_eq in E. injection H as ->. subst k'. left. reflexivity.
  - right. apply IH, H.
Qed.

(** ** Namespaces *)
Definition ns_of (pkg2 : bool) : string := if pkg2 then V2_NS else V1_NS.

Lemma namespace_inv : forall id pkg2 n, namespace_of id = Some (pkg2, n) ->
  startswith (ns_of pkg2) id = true /\ exists a, id = (a ++ ns_of pkg2 ++ n)%string.
Proof.
  intros id pkg2 n H. unfold namespace_of in H.
  assert (Hgen : forall x sep m, startswith (String x sep) id = true ->
    py_last (py_split (String x sep) id) = Ok m ->
    exists a, id = (a ++ String x sep ++ m)%string).
  { intros x sep m Hs Hl. destruct (last_split x sep id) as (m' & Hm & Hc & Hno).
    rewrite Hl in Hm. injection Hm as <-. destruct Hc as [->|Hc]; [|exact Hc].
    exfalso. unfold startswith in Hs. apply prefix_true_iff in Hs. destruct Hs as [t Ht].
    apply (Hno "" t). exact Ht. }
  destruct (startswith V1_NS id) eqn:E1.
  - destruct (py_last (py_split V1_NS id)) as [m|e] eqn:El; [|discriminate].
    injection H as <- <-. split; [exact E1|]. apply (Hgen _ _ _ E1 El).
  - destruct (startswith V2_NS id) eqn:E2; [|discriminate].
    destruct (py_last (py_split V2_NS id)) as [m|e] eqn:El; [|discriminate].
    injection H as <- <-. split; [exact E2|]. apply (Hgen _ _ _ E2 El).
Qed.

Lemma ns_colon : forall pkg2, exists s, ns_of pkg2 = (s ++ ":")%string.
Proof.
  intros []; [exists "urn:oasis:names:tc:xacml:2.0:function"|exists "urn:oasis:names:tc:xacml:1.0:function"];
    reflexivity.
Qed.

Lemma prefix_shorter : forall p x y, String.prefix p (x ++ y) = true ->
  String.length p <= String.length x -> String.prefix p x = true.
Proof.
  induction p as [|a p IH]; intros x y H Hl; [destruct x; reflexivity|].
  destruct x as [|b x]; simpl in Hl; [lia|]. simpl in *.
  destruct (ascii_dec a b); [|discriminate]. apply (IH x y H). lia.
Qed.

Lemma last_colon_suffix : forall n name, py_last (py_split ":" n) = Ok name ->
  has_char ":" name = false /\ (n = name \/ exists b, n = (b ++ ":" ++ name)%string).
Proof.
  intros n name H. destruct (last_split ":" "" n) as (m & Hm & Hc & Hno).
  rewrite H in Hm. injection Hm as <-. split; [apply no_sub_char, Hno|exact Hc].
Qed.

(** The last ':' segment of an identifier is that of its function name, and what is
    before it ends with a colon and starts with the namespace. *)
Lemma id_segments : forall id pkg2 n name,
  namespace_of id = Some (pkg2, n) -> py_last (py_split ":" id) = Ok name ->
  py_last (py_split ":" n) = Ok name /\
  exists segs, id = (segs ++ ":" ++ name)%string /\ startswith (ns_of pkg2) (segs ++ ":") = true.
Proof.
  intros id pkg2 n name Hns Hl. destruct (namespace_inv _ _ _ Hns) as (Hs & a & Ha).
  destruct (ns_colon pkg2) as [s Hc].
  assert (Hid : id = ((a ++ s) ++ String ":" n)%string).
  { rewrite Ha, Hc, !app_assoc_s. reflexivity. }
  rewrite Hid, last_split_char in Hl. split; [exact Hl|].
  destruct (last_colon_suffix _ _ Hl) as [_ Hcase].
  assert (Hex : exists segs, id = (segs ++ ":" ++ name)%string /\
             String.length (ns_of pkg2) <= String.length (segs ++ ":")).
  { destruct Hcase as [->|[b ->]].
    - exists (a ++ s)%string. split; [exact Hid|]. rewrite Hc, !app_length_s. lia.
    - exists (a ++ ns_of pkg2 ++ b)%string. split.
      + rewrite Ha, !app_assoc_s. reflexivity.
      + rewrite !app_length_s. lia. }
  destruct Hex as (segs & He & Hlen). exists segs. split; [exact He|].
  unfold startswith in *. rewrite He in Hs.
  replace (segs ++ ":" ++ name)%string with ((segs ++ ":") ++ name)%string in Hs
    by (rewrite app_assoc_s; reflexivity).
  apply (prefix_shorter _ _ _ Hs Hlen).
Qed.

(** ** Module names *)
Lemma module_inv : forall n m, module_name n = m ->
  (n = m /\ has_char "-" n = false) \/
  (exists p r, n = (p ++ "-" ++ r)%string /\ has_char "-" p = false /\ norm r = m) \/
  (exists pre r, (pre = "url-string-" \/ pre = "xpath-node-") /\
     n = (pre ++ r)%string /\ norm r = m).
Proof.
  intros n m H. destruct (has_char "-" n) eqn:E.
  - right. apply has_char_split in E. destruct E as (p & r & -> & Hp).
    unfold module_name in H. rewrite split_char_app in H by exact Hp.
    destruct (py_split "-" r) as [|x xs] eqn:Er; [exfalso; apply (py_split_not_nil _ _ _ Er)|].
    unfold special_prefix in H.
    destruct (startswith "url-string-" (p ++ String "-" r)) eqn:E1.
    + right. unfold startswith in E1. apply prefix_true_iff in E1. destruct E1 as [t Ht].
      exists "url-string-", t. split; [auto|]. split; [exact Ht|].
      rewrite Ht, str_drop_app, norm_spec in H. exact H.
    + destruct (startswith "xpath-node-" (p ++ String "-" r)) eqn:E2.
      * right. unfold startswith in E2. apply prefix_true_iff in E2. destruct E2 as [t Ht].
        exists "xpath-node-", t. split; [auto|]. split; [exact Ht|].
        rewrite Ht, str_drop_app, norm_spec in H. exact H.
      * left. exists p, r. split; [reflexivity|]. split; [exact Hp|].
        rewrite <- Er, norm_spec in H. exact H.
  - left. unfold module_name in H. rewrite split_char_none in H by exact E. split; auto.
Qed.

(** Keys of TYPE_URI_MAP and SPECIAL_TYPE_MAP. *)
Definition type_keys : list string := map fst TYPE_URI_MAP ++ map fst SPECIAL_TYPE_MAP.

Section Typed.
Variable cm : list (string * avclass).
Variable s1 : string.   (* family name *)
Variable m : string.    (* module name *)
Hypothesis Hlen : String.length m = String.length s1.
Hypothesis Hcolon : has_char ":" m = false.
Hypothesis Hkeys : forallb (fun k => negb (ends_with (sq k) (sq m))) type_keys = true.
Hypothesis Hfirst : match s1 with
                    | String c _ => c <> "s"%char /\ c <> "n"%char
                    | "" => False end.

Lemma key_not_ends : forall k a, In k type_keys -> sq k <> (a ++ sq m)%string.
Proof.
  intros k a Hin He. rewrite forallb_forall in Hkeys. specialize (Hkeys k Hin).
  rewrite He, ends_with_app in Hkeys. discriminate.
Qed.

Lemma typed_sound : forall id pkg2 n c,
  namespace_of id = Some (pkg2, n) -> module_name n = m ->
  function_type cm (String "-" s1) id = Ok c ->
  exists segs t uri, id = (segs ++ ":" ++ t ++ "-" ++ s1)%string /\
    startswith (ns_of pkg2) (segs ++ ":") = true /\
    spells_type t uri /\ dict_get uri cm = Some c.
Proof.
  intros id pkg2 n c Hns Hm Hf.
  destruct (function_type_inv _ _ _ _ Hf)
    as (name & typePart & tn0 & tn & uri & Hl & Hfirstp & Hcap & Hsq & Hnoh & Huri & Hc).
  destruct (id_segments _ _ _ _ Hns Hl) as (Hln & segs & Hid & Hstart).
  destruct (last_colon_suffix _ _ Hln) as [Hnc Hcase].
  (* the key found *)
  assert (Hkey : exists k, In k type_keys /\ sq k = sq typePart).
  { destruct Huri as [Hu|(_ & n0 & Hs & _)].
    - exists tn. split; [|exact Hsq]. apply in_or_app. left. apply dict_get_in in Hu.
      apply in_map_iff. exists (tn, uri). split; [reflexivity|exact Hu].
    - exists typePart. split; [|reflexivity]. apply in_or_app. right. apply dict_get_in in Hs.
      apply in_map_iff. exists (typePart, n0). split; [reflexivity|exact Hs]. }
  destruct Hkey as (k & Hk & Hksq).
  (* shape of the last segment *)
  assert (Hshape : (name = m) \/
    (exists q r, name = (q ++ "-" ++ r)%string /\ has_char "-" q = false /\ norm r = m) \/
    (exists pre r, (pre = "url-string" \/ pre = "xpath-node") /\
       name = (pre ++ "-" ++ r)%string /\ norm r = m)).
  { destruct (module_inv n m Hm) as [[He _]|[(p & r & He & Hp & Hr)|(pre & r & Hpre & He & Hr)]].
    - left. subst n. rewrite last_split_none in Hln by exact Hcolon. congruence.
    - right. left. assert (Hrc : has_char ":" r = false) by (rewrite <- norm_colon, Hr; exact Hcolon).
      destruct (has_char ":" p) eqn:Ep.
      + destruct (last_split ":" "" p) as (q & Hq & Hqc & Hqno).
        assert (Hq' : exists b, p = (b ++ String ":" q)%string).
        { destruct Hqc as [->|[b ->]]; [|exists b; reflexivity].
          apply no_sub_char in Hqno. congruence. }
        destruct Hq' as [b Hb]. exists q, r.
        assert (Hqh : has_char "-" q = false).
        { rewrite Hb, has_char_app in Hp. apply orb_false_iff in Hp. destruct Hp as [_ Hp].
          simpl in Hp. exact Hp. }
        split; [|split; [exact Hqh|exact Hr]].
        rewrite He, Hb, app_assoc_s in Hln. cbn [append] in Hln. rewrite last_split_char in Hln.
        rewrite last_split_none in Hln; [injection Hln as <-; reflexivity|].
        rewrite has_char_app. cbn [has_char append]. rewrite Hrc. apply no_sub_char in Hqno.
        rewrite Hqno. reflexivity.
      + exists p, r. split; [|split; [exact Hp|exact Hr]].
        rewrite He, last_split_none in Hln; [injection Hln as <-; reflexivity|].
        rewrite has_char_app. cbn [has_char append]. rewrite Ep, Hrc. reflexivity.
    - right. right. assert (Hrc : has_char ":" r = false) by (rewrite <- norm_colon, Hr; exact Hcolon).
      rewrite He, last_split_none in Hln
        by (rewrite has_char_app, Hrc; destruct Hpre as [->| ->]; reflexivity).
      injection Hln as <-.
      destruct Hpre as [->| ->]; [exists "url-string", r|exists "xpath-node", r]; auto. }
  (* where the suffix is *)
  destruct (split_first "-" s1 name) as (f & rest & Hsp & Hsc).
  rewrite Hsp in Hfirstp. cbn [py_first] in Hfirstp. injection Hfirstp as ->.
  destruct Hsc as [(_ & He & _)|(t' & He & _ & _)].
  - (* no occurrence: the whole segment would name a type *)
    exfalso. subst name. rename typePart into name.
    destruct Hshape as [Hs|[(q & r & Hs & _ & Hr)|(pre & r & _ & Hs & Hr)]].
    + apply (key_not_ends k "" Hk). rewrite Hksq, Hs. reflexivity.
    + apply (key_not_ends k (sq q) Hk). rewrite Hksq, Hs, !sq_app, <- Hr, sq_norm. reflexivity.
    + apply (key_not_ends k (sq pre) Hk). rewrite Hksq, Hs, !sq_app, <- Hr, sq_norm. reflexivity.
  - assert (Hfin : t' = "" /\ ((exists r, norm r = m /\ typePart = "url-string") \/
                              (exists r, norm r = m /\ typePart = "xpath-node") \/
                              has_char "-" typePart = false)).
    { destruct Hshape as [Hs|[(q & r & Hs & Hq & Hr)|(pre & r & Hpre & Hs & Hr)]].
      - exfalso. rewrite Hs in He. apply (f_equal String.length) in He.
        rewrite !app_length_s in He. simpl in He. lia.
      - assert (Hrl : String.length r = String.length s1).
        { rewrite <- Hlen, <- Hr. unfold norm. rewrite smap_length. reflexivity. }
        rewrite He in Hs. pose proof (f_equal String.length Hs) as Hl2.
        rewrite !app_length_s in Hl2. simpl in Hl2.
        assert (Ht : typePart = q).
        { clear -Hs Hq Hl2 Hrl. revert typePart Hs Hl2.
          induction q as [|x q IH]; intros [|y tp] Hs Hl2; simpl in *; try lia.
          - reflexivity.
          - exfalso. injection Hs as Hx _. subst x. simpl in Hq. discriminate.
          - apply orb_false_iff in Hq. destruct Hq as [Hx Hq]. injection Hs as -> Hs.
            f_equal. apply IH; [exact Hq|exact Hs|lia]. }
        subst typePart. split.
        + destruct t'; [reflexivity|simpl in Hl2; lia].
        + right. right. exact Hq.
      - assert (Hrl : String.length r = String.length s1).
        { rewrite <- Hlen, <- Hr. unfold norm. rewrite smap_length. reflexivity. }
        rewrite He in Hs. pose proof (f_equal String.length Hs) as Hl2.
        rewrite !app_length_s in Hl2. simpl in Hl2.
        destruct s1 as [|c1 s1'] eqn:Es1; [destruct Hfirst|]. destruct Hfirst as [Hfs Hfn].
        assert (Ht : typePart = pre).
        { destruct Hpre as [->| ->]; cbn in Hl2.
          - simpl in Hrl. assert (Hle : String.length typePart <= 10) by lia. clear Hl2.
            do 11 (destruct typePart as [|? typePart];
              [cbn in Hs; try discriminate; try (injection Hs; intros; congruence); reflexivity|
               cbn in Hs; injection Hs as -> Hs]).
            exfalso. simpl in Hle. lia.
          - simpl in Hrl. assert (Hle : String.length typePart <= 10) by lia. clear Hl2.
            do 11 (destruct typePart as [|? typePart];
              [cbn in Hs; try discriminate; try (injection Hs; intros; congruence); reflexivity|
               cbn in Hs; injection Hs as -> Hs]).
            exfalso. simpl in Hle. lia. }
        subst pre. split.
        + destruct t'; [reflexivity|simpl in Hl2, Hrl; lia].
        + destruct Hpre as [->| ->]; [left|right; left]; exists r; auto. }
    destruct Hfin as [-> Hfin].
    exists segs, typePart, uri. split; [|split; [exact Hstart|split; [|exact Hc]]].
    + rewrite Hid, He. f_equal. f_equal. f_equal. simpl. rewrite app_empty_r. reflexivity.
    + destruct Hfin as [(r & _ & ->)|[(r & _ & ->)|Hnh]].
      * cbn in Hcap. injection Hcap as <-.
        destruct Huri as [Hu|(Hu & n0 & Hs & Hn)].
        -- exfalso. apply dict_get_in in Hu.
           assert (Hx : In tn (map fst TYPE_URI_MAP)) by (apply in_map_iff; exists (tn, uri); auto).
           assert (Hch : forallb (fun k => negb (String.eqb (sq k) "urlstring")) (map fst TYPE_URI_MAP) = true)
             by (vm_compute; reflexivity).
           rewrite forallb_forall in Hch. specialize (Hch tn Hx). rewrite Hsq in Hch.
           vm_compute in Hch. discriminate.
        -- cbn in Hs. injection Hs as <-. cbn in Hn. injection Hn as <-. apply spells_url.
      * cbn in Hcap. injection Hcap as <-.
        destruct Huri as [Hu|(Hu & n0 & Hs & Hn)].
        -- exfalso. apply dict_get_in in Hu.
           assert (Hx : In tn (map fst TYPE_URI_MAP)) by (apply in_map_iff; exists (tn, uri); auto).
           assert (Hch : forallb (fun k => negb (String.eqb (sq k) "xpathnode")) (map fst TYPE_URI_MAP) = true)
             by (vm_compute; reflexivity).
           rewrite forallb_forall in Hch. specialize (Hch tn Hx). rewrite Hsq in Hch.
           vm_compute in Hch. discriminate.
        -- cbn in Hs. injection Hs as <-. cbn in Hn. injection Hn as <-. apply spells_xpath.
      * destruct typePart as [|c0 rest0]; [discriminate|]. cbn in Hcap. injection Hcap as <-.
        assert (Hno : has_char "-" (String (ascii_upper c0) rest0) = false).
        { assert (Hc0 : forall c, Bool.eqb (Ascii.eqb "-" (ascii_upper c)) (Ascii.eqb "-" c) = true)
            by (apply check_chars; vm_compute; reflexivity).
          cbn [has_char] in *. rewrite (eqb_prop _ _ (Hc0 c0)). exact Hnh. }
        specialize (Hnoh Hno). subst tn.
        destruct Huri as [Hu|(Hu & n0 & Hs & Hn)].
        -- apply dict_get_in in Hu. unfold TYPE_URI_MAP in Hu. apply in_map_iff in Hu.
           destruct Hu as ([nm [u nt]] & Hp & Hin). cbn [fst snd] in Hp. injection Hp as Hnm Hu2. subst uri.
           apply (spells_plain (String c0 rest0) nm u nt); [exact Hin|].
           exists c0, rest0. split; [reflexivity|exact Hnm].
        -- exfalso. apply dict_get_in in Hs.
           destruct Hs as [Hs|[Hs|[]]]; injection Hs as Hc1 Hr1 Hn1; subst; cbn in Hnh; discriminate.
Qed.
End Typed.

(** ** Soundness of resolution *)
Lemma dict_get_cases : forall V k (v : V) d, dict_get k d = Some v -> In (k, v) d.
Proof. exact dict_get_in. Qed.

Lemma resolve_sound : forall cm id f,
  resolve cm id = Ok (FImpl f) -> names_function cm id f.
Proof.
  intros cm id f H. rewrite resolve_fresh in H. unfold fresh_load in H.
  destruct (namespace_of id) as [[pkg2 n]|] eqn:Hns; [|discriminate].
  destruct (import_factory pkg2 (module_name n)) as [fam|] eqn:Him; [|discriminate].
  destruct (factory_call cm fam id) as [[f'|]|e] eqn:Hf; try discriminate.
  injection H as ->.
  assert (Htyped : forall s1 m mk c,
    String.length m = String.length s1 -> has_char ":" m = false ->
    forallb (fun k => negb (ends_with (sq k) (sq m))) type_keys = true ->
    match s1 with String c _ => c <> "s"%char /\ c <> "n"%char | "" => False end ->
    module_name n = m -> In (ns_of pkg2, s1, mk) typed_families ->
    function_type cm (String "-" s1) id = Ok c -> names_function cm id (mk c)).
  { intros s1 m mk c H1 H2 H3 H4 Hm Hin Hft.
    destruct (typed_sound cm s1 m H1 H2 H3 H4 id pkg2 n c Hns Hm Hft)
      as (segs & t & uri & -> & Hst & Hsp & Hc).
    apply (names_typed cm (ns_of pkg2) s1 mk segs t uri c Hin Hst Hsp Hc). }
  destruct pkg2; cbn [import_factory] in Him; apply dict_get_cases in Him.
  - destruct Him as [Him|[Him|[]]]; injection Him as Hm <-; symmetry in Hm;
      unfold factory_call, typed in Hf.
    + destruct (function_type cm "-concatenate" id) as [c|e] eqn:Et; [|discriminate].
      injection Hf as <-.
      apply (Htyped "concatenate" "concatenate" FnConcat c); try reflexivity; try assumption;
        [split; discriminate|cbn; tauto].
    + destruct (function_type cm "-regexp-match" id) as [c|e] eqn:Et; [|discriminate].
      injection Hf as <-.
      apply (Htyped "regexp-match" "regexp_match" FnRegexp c); try reflexivity; try assumption;
        [split; discriminate|cbn; tauto].
  - cbn [In] in Him.
    repeat (destruct Him as [Him|Him]; [injection Him as Hm <-; symmetry in Hm;
      unfold factory_call, typed in Hf|]); [..|destruct Him].
    + destruct (String.eqb id (v1 "and")) eqn:E; [|discriminate]. injection Hf as <-.
      apply String.eqb_eq in E. subst id. apply names_and.
    + destruct (function_type cm "-at-least-one-member-of" id) as [c|e] eqn:Et; [|discriminate].
      injection Hf as <-.
      apply (Htyped "at-least-one-member-of" "at_least_one_member_of" FnAtLeastOne c);
        try reflexivity; try assumption; [split; discriminate|cbn; tauto].
    + destruct (function_type cm "-bag" id) as [c|e] eqn:Et; [|discriminate].
      injection Hf as <-.
      apply (Htyped "bag" "bag" FnBag c);
        try reflexivity; try assumption; [split; discriminate|cbn; tauto].
    + destruct (function_type cm "-equal" id) as [c|e] eqn:Et; [|discriminate].
      injection Hf as <-.
      apply (Htyped "equal" "equal" FnEqual c);
        try reflexivity; try assumption; [split; discriminate|cbn; tauto].
    + destruct (function_type cm "-match" id) as [c|e] eqn:Et; [|discriminate].
      injection Hf as <-.
      apply (Htyped "match" "match" FnMatch c);
        try reflexivity; try assumption; [split; discriminate|cbn; tauto].
    + destruct (String.eqb id (v1 "not")) eqn:E; [|discriminate]. injection Hf as <-.
      apply String.eqb_eq in E. subst id. apply names_not.
    + destruct (function_type cm "-one-and-only" id) as [c|e] eqn:Et; [|discriminate].
      injection Hf as <-.
      apply (Htyped "one-and-only" "one_and_only" FnOneAndOnly c);
        try reflexivity; try assumption; [split; discriminate|cbn; tauto].
    + destruct (String.eqb id (v1 "string-regexp-match")) eqn:E; [|discriminate].
      injection Hf as <-. apply String.eqb_eq in E. subst id. apply names_regexp.
    + destruct (String.eqb id (v1 "round")) eqn:E; [|discriminate]. injection Hf as <-.
      apply String.eqb_eq in E. subst id. apply names_round.
Qed.

(** ** Resolution of canonical identifiers *)
Lemma namespace_canonical : forall pkg2 n, has_char ":" n = false ->
  namespace_of (ns_of pkg2 ++ n) = Some (pkg2, n).
Proof.
  intros pkg2 n Hn.
  assert (Hl : forall x sep, ns_of pkg2 = String x sep ->
    py_last (py_split (String x sep) (ns_of pkg2 ++ n)) = Ok n).
  { intros x sep Hx. destruct (last_split x sep (ns_of pkg2 ++ n)) as (m & Hm & Hc & Hno).
    rewrite Hm. f_equal.
    assert (Hc' : exists a, (ns_of pkg2 ++ n)%string = (a ++ ns_of pkg2 ++ m)%string).
    { rewrite Hx in *. destruct Hc as [Hc|Hc]; [|exact Hc].
      exfalso. apply (Hno "" n). symmetry. exact Hc. }
    destruct Hc' as [a Ha]. destruct (ns_colon pkg2) as [s Hs].
    assert (H1 : py_last (py_split ":" (ns_of pkg2 ++ n)) = Ok n).
    { rewrite Hs, app_assoc_s. cbn [append]. rewrite last_split_char, last_split_none by exact Hn.
      reflexivity. }
    assert (H2 : py_last (py_split ":" m) = Ok n).
    { rewrite <- H1, Ha, Hs, !app_assoc_s. cbn [append].
      rewrite <- (app_assoc_s a s (String ":" m)), last_split_char. reflexivity. }
    apply (f_equal String.length) in Ha. rewrite !app_length_s in Ha.
    destruct (last_colon_suffix _ _ H2) as [_ [->|[b ->]]]; [reflexivity|].
    rewrite !app_length_s in Ha. simpl in Ha. lia. }
  assert (Hl' : py_last (py_split (ns_of pkg2) (ns_of pkg2 ++ n)) = Ok n)
    by (destruct pkg2; apply (Hl _ _ eq_refl)).
  clear Hl. unfold namespace_of. destruct pkg2; cbn [ns_of] in *.
  - replace (startswith V1_NS (V2_NS ++ n)) with false by reflexivity.
    replace (startswith V2_NS (V2_NS ++ n)) with true by (symmetry; apply prefix_app).
    rewrite Hl'. reflexivity.
  - replace (startswith V1_NS (V1_NS ++ n)) with true by (symmetry; apply prefix_app).
    rewrite Hl'. reflexivity.
Qed.

Lemma first_dash : forall t u x y, has_char "-" t = false ->
  (t ++ String "-" u)%string = (x ++ String "-" y)%string ->
  (x = t /\ y = u) \/ exists z, x = (t ++ String "-" z)%string.
Proof.
  induction t as [|c t IH]; intros u x y Ht He; destruct x as [|d x]; simpl in He.
  - injection He as ->. left. auto.
  - injection He as <- _. right. exists x. reflexivity.
  - injection He as -> _. simpl in Ht. discriminate.
  - injection He as <- He. simpl in Ht. apply orb_false_iff in Ht. destruct Ht as [_ Ht].
    destruct (IH u x y Ht He) as [[-> ->]|[z ->]]; [left; auto|right; exists z; reflexivity].
Qed.

Lemma first_split_suffix : forall t s, has_char "-" t = false ->
  py_first (py_split (String "-" s) (t ++ String "-" s)) = Ok t.
Proof.
  intros t s Ht. destruct (split_first "-" s (t ++ String "-" s)) as (f & rest & H & Hc).
  rewrite H. cbn [py_first]. f_equal.
  destruct Hc as [(_ & _ & Hno)|(t' & He & _ & _)].
  - exfalso. apply (Hno t ""). rewrite app_empty_r. reflexivity.
  - cbn [append] in He. destruct (first_dash t s f (s ++ t') Ht He) as [[-> _]|[z ->]]; [reflexivity|].
    exfalso. apply (f_equal String.length) in He. rewrite !app_length_s in He. simpl in He.
    rewrite !app_length_s in He. lia.
Qed.

Definition capital (t : string) : string :=
  match t with "" => "" | String c r => String (ascii_upper c) r end.

Lemma plain_function_type : forall cm pkg2 t s, t <> "" ->
  has_char "-" t = false -> has_char ":" t = false -> has_char ":" s = false ->
  function_type cm (String "-" s) (ns_of pkg2 ++ t ++ String "-" s) =
  match dict_get (capital t) TYPE_URI_MAP with
  | Some u => match dict_get u cm with Some c => Ok c | None => Raise ETypeError end
  | None => Raise ETypeError
  end.
Proof.
  intros cm pkg2 t s Hne Ht Htc Hsc. unfold function_type.
  assert (Hl : py_last (py_split ":" (ns_of pkg2 ++ t ++ String "-" s)) = Ok (t ++ String "-" s)%string).
  { destruct (ns_colon pkg2) as [p ->]. rewrite app_assoc_s. cbn [append].
    rewrite last_split_char, last_split_none; [reflexivity|].
    rewrite has_char_app. cbn [has_char]. rewrite Htc, Hsc. reflexivity. }
  rewrite Hl. cbn [bind]. rewrite first_split_suffix by exact Ht. cbn [bind].
  destruct t as [|c r]; [congruence|]. cbn [py_capitalize_first bind capital].
  assert (Hno : has_char "-" (String (ascii_upper c) r) = false).
  { assert (Hc0 : forall c, Bool.eqb (Ascii.eqb "-" (ascii_upper c)) (Ascii.eqb "-" c) = true)
      by (apply check_chars; vm_compute; reflexivity).
    cbn [has_char] in *. rewrite (eqb_prop _ _ (Hc0 c)). exact Ht. }
  rewrite Hno. cbn [bind].
  destruct (dict_get (String (ascii_upper c) r) TYPE_URI_MAP) as [u|]; [reflexivity|].
  destruct (dict_get (String c r) SPECIAL_TYPE_MAP) as [n|] eqn:Es; [|reflexivity].
  exfalso. apply dict_get_in in Es. destruct Es as [Es|[Es|[]]]; injection Es as <- <- _;
    vm_compute in Ht; discriminate.
Qed.

Lemma plain_module : forall t s, has_char "-" t = false ->
  startswith "string-" s = false -> startswith "node-" s = false ->
  module_name (t ++ String "-" s) = norm s.
Proof.
  intros t s Ht H1 H2. unfold module_name. rewrite split_char_app by exact Ht.
  destruct (py_split "-" s) as [|x xs] eqn:Es; [exfalso; apply (py_split_not_nil _ _ _ Es)|].
  assert (Hsp : special_prefix (t ++ String "-" s) = None).
  { unfold special_prefix.
    destruct (startswith "url-string-" (t ++ String "-" s)) eqn:E1.
    - exfalso. unfold startswith in E1, H1. apply prefix_true_iff in E1. destruct E1 as [r Hr].
      destruct (first_dash t s "url" ("string-" ++ r) Ht Hr) as [[_ <-]|[z Hz]].
      + rewrite prefix_app in H1. discriminate.
      + assert (Hh : has_char "-" "url" = true)
          by (rewrite Hz, has_char_app; cbn; apply orb_true_r).
        discriminate Hh.
    - destruct (startswith "xpath-node-" (t ++ String "-" s)) eqn:E2; [|reflexivity].
      exfalso. unfold startswith in E2, H2. apply prefix_true_iff in E2. destruct E2 as [r Hr].
      destruct (first_dash t s "xpath" ("node-" ++ r) Ht Hr) as [[_ <-]|[z Hz]].
      + rewrite prefix_app in H2. discriminate.
      + assert (Hh : has_char "-" "xpath" = true)
          by (rewrite Hz, has_char_app; cbn; apply orb_true_r).
        discriminate Hh. }
  rewrite Hsp, <- Es. apply norm_spec.
Qed.

Lemma plain_resolution : forall cm ns family mk t,
  In (ns, family, mk) typed_families -> t <> "" ->
  has_char "-" t = false -> has_char ":" t = false ->
  resolve cm (ns ++ t ++ "-" ++ family) =
  match dict_get (capital t) TYPE_URI_MAP with
  | Some u => match dict_get u cm with Some c => Ok (FImpl (mk c)) | None => Raise ETypeError end
  | None => Raise ETypeError
  end.
Proof.
  intros cm ns family mk t Hin Hne Ht Htc. rewrite resolve_fresh. unfold fresh_load.
  assert (Hgo : forall pkg2 s, has_char ":" s = false ->
    namespace_of (ns_of pkg2 ++ t ++ "-" ++ s) = Some (pkg2, (t ++ String "-" s)%string)).
  { intros pkg2 s Hs. apply namespace_canonical. rewrite has_char_app, Htc. cbn. exact Hs. }
  cbn [In typed_families] in Hin.
  repeat (destruct Hin as [Hin|Hin];
    [injection Hin as <- <- <-;
     match goal with |- context [namespace_of (V1_NS ++ _)] => change V1_NS with (ns_of false)
                   | |- context [namespace_of (V2_NS ++ _)] => change V2_NS with (ns_of true) end;
     rewrite Hgo by reflexivity; rewrite plain_module by (assumption || reflexivity);
     match goal with |- context [import_factory ?p ?m] =>
       let v := eval vm_compute in (import_factory p m) in change (import_factory p m) with v end;
     cbv iota beta; unfold factory_call; cbn [append];
     rewrite plain_function_type by (assumption || reflexivity);
     destruct (dict_get (capital t) TYPE_URI_MAP) as [u|]; [|reflexivity];
     destruct (dict_get u cm) as [c|]; reflexivity|]).
  destruct Hin.
Qed.

Lemma resolve_complete : forall cm ns family mk t uri c,
  In (ns, family, mk) typed_families -> spells_type t uri -> dict_get uri cm = Some c ->
  resolve cm (ns ++ t ++ "-" ++ family) = Ok (FImpl (mk c)).
Proof.
  intros cm ns family mk t uri c Hin Hsp Hc. destruct Hsp as [t name uri nt Hn (c0 & rest & -> & ->)| |].
  - assert (Hch : forall x, (x = "-" \/ x = ":")%char -> has_char x (String c0 rest) = false).
    { intros x Hx. transitivity (has_char x (String (ascii_upper c0) rest)).
      - cbn [has_char]. f_equal. symmetry. apply eqb_prop.
        destruct Hx as [->| ->]; revert c0 Hn; intros c0 _; revert c0; apply check_chars; vm_compute; reflexivity.
      - assert (Hall : forallb (fun p => negb (has_char x (fst p))) TYPE_TABLE = true)
          by (destruct Hx as [->| ->]; vm_compute; reflexivity).
        rewrite forallb_forall in Hall. specialize (Hall _ Hn). cbn [fst] in Hall.
        apply negb_true_iff, Hall. }
    rewrite (plain_resolution cm ns family mk) by (auto; discriminate).
    cbn [capital].
    assert (Hd : dict_get (String (ascii_upper c0) rest) TYPE_URI_MAP = Some uri).
    { clear -Hn. cbn [In TYPE_TABLE] in Hn. unfold TYPE_TABLE in Hn. cbn [In] in Hn.
      repeat (destruct Hn as [Hn|Hn]; [injection Hn as Hc0 Hrest Hu _; subst rest uri;
        rewrite <- Hc0; vm_compute; reflexivity|]). destruct Hn. }
    rewrite Hd, Hc. reflexivity.
  - rewrite resolve_fresh. unfold fresh_load. cbn [In typed_families] in Hin.
    repeat (destruct Hin as [Hin|Hin]; [injection Hin as <- <- <-;
      match goal with |- context [namespace_of ?i] =>
        let v := eval vm_compute in (namespace_of i) in
        replace (namespace_of i) with v by (vm_compute; reflexivity) end; cbv iota beta;
      match goal with |- context [import_factory ?p ?m] =>
       let v := eval vm_compute in (import_factory p m) in
       replace (import_factory p m) with v by (vm_compute; reflexivity) end;
      cbv iota beta; unfold factory_call;
      match goal with |- context [function_type cm ?s ?i] =>
        assert (Hft : function_type cm s i = Ok c)
          by (vm_compute in Hc; vm_compute; rewrite Hc; reflexivity);
        rewrite Hft end; reflexivity|]). destruct Hin.
  - rewrite resolve_fresh. unfold fresh_load. cbn [In typed_families] in Hin.
    repeat (destruct Hin as [Hin|Hin]; [injection Hin as <- <- <-;
      match goal with |- context [namespace_of ?i] =>
        let v := eval vm_compute in (namespace_of i) in
        replace (namespace_of i) with v by (vm_compute; reflexivity) end; cbv iota beta;
      match goal with |- context [import_factory ?p ?m] =>
       let v := eval vm_compute in (import_factory p m) in
       replace (import_factory p m) with v by (vm_compute; reflexivity) end;
      cbv iota beta; unfold factory_call;
      match goal with |- context [function_type cm ?s ?i] =>
        assert (Hft : function_type cm s i = Ok c)
          by (vm_compute in Hc; vm_compute; rewrite Hc; reflexivity);
        rewrite Hft end; reflexivity|]). destruct Hin.
Qed.

Lemma resolve_unknown_type : forall cm ns family mk t,
  In (ns, family, mk) typed_families -> t <> "" ->
  has_char "-" t = false -> has_char ":" t = false ->
  (forall uri, ~ spells_type t uri) ->
  resolve cm (ns ++ t ++ "-" ++ family) = Raise ETypeError.
Proof.
  intros cm ns family mk t Hin Hne Ht Htc Hno. rewrite (plain_resolution cm ns family mk) by assumption.
  destruct (dict_get (capital t) TYPE_URI_MAP) as [u|] eqn:E; [|reflexivity].
  exfalso. apply (Hno u). apply dict_get_in in E. unfold TYPE_URI_MAP in E.
  apply in_map_iff in E. destruct E as ([nm [u' nt]] & He & Hi). cbn [fst snd] in He.
  injection He as Hnm ->. apply (spells_plain t nm u nt Hi).
  destruct t as [|c r]; [congruence|]. exists c, r. split; [reflexivity|exact Hnm].
Qed.

Lemma resolve_config_error : forall cm id,
  resolve cm id = Raise EFunctionMapConfigError <->
  (startswith V1_NS id = false /\ startswith V2_NS id = false).
Proof.
  assert (Hft : forall cm s id, function_type cm s id <> Raise EFunctionMapConfigError).
  { intros cm s id. unfold function_type.
    destruct (py_last (py_split ":" id)) as [name|e] eqn:E1; cbn [bind].
    2:{ unfold py_last in E1. destruct (rev _); [injection E1 as <-|discriminate]. discriminate. }
    destruct (py_first (py_split s name)) as [tp|e] eqn:E2; cbn [bind].
    2:{ unfold py_first in E2. destruct (py_split s name); [injection E2 as <-|discriminate]. discriminate. }
    destruct (py_capitalize_first tp) as [tn0|e] eqn:E3; cbn [bind].
    2:{ destruct tp; [injection E3 as <-|discriminate]. discriminate. }
    assert (Hcam : forall l, camel l <> Raise EFunctionMapConfigError).
    { intros l. unfold camel. assert (Hm : forall l, mapM py_capitalize_first l <> Raise EFunctionMapConfigError).
      { clear l. induction l as [|x l' IH]; [discriminate|]. cbn. cbn in IH.
        destruct (py_capitalize_first x) as [y|e] eqn:Ex; cbn [bind];
          [|destruct x; [injection Ex as <-|discriminate]; discriminate].
        fold (@mapM string string py_capitalize_first) in IH |- *.
        destruct (mapM py_capitalize_first l') as [ys|e]; cbn [bind]; [discriminate|].
        intros Hx. injection Hx as ->. apply IH. reflexivity. }
      specialize (Hm l). destruct (mapM py_capitalize_first l) as [l'|e]; cbn [bind]; [discriminate|].
      intros He. apply Hm. injection He as ->. reflexivity. }
    destruct (if has_char "-" tn0 then camel (py_split "-" tn0) else Ok tn0) as [tn|e] eqn:E4; cbn [bind].
    2:{ destruct (has_char "-" tn0); [|discriminate]. intros He. injection He as ->. apply (Hcam _ E4). }
    destruct (dict_get tn TYPE_URI_MAP) as [u|]; cbn [bind].
    - destruct (dict_get u cm); discriminate.
    - destruct (dict_get tp SPECIAL_TYPE_MAP) as [n|]; cbn [bind]; [|discriminate].
      destruct (dict_get n TYPE_URI_MAP) as [u|]; cbn [bind]; [|discriminate].
      destruct (dict_get u cm); discriminate. }
  assert (Hty : forall cm s id mk, typed (function_type cm s id) mk <> Raise EFunctionMapConfigError).
  { intros cm s id mk. unfold typed. specialize (Hft cm s id).
    destruct (function_type cm s id) as [c|e]; cbn [bind]; [discriminate|]. congruence. }
  intros cm id. rewrite resolve_fresh. unfold fresh_load. split.
  - destruct (namespace_of id) as [[pkg2 n]|] eqn:Hn.
    + intros H. exfalso.
      destruct (import_factory pkg2 (module_name n)) as [fam|]; [|discriminate].
      assert (Hfc : factory_call cm fam id <> Raise EFunctionMapConfigError).
      { destruct fam; cbn [factory_call]; first [discriminate|apply Hty]. }
      destruct (factory_call cm fam id) as [[f|]|e]; try discriminate.
      * unfold unsupported_error in H. destruct (str_in id FUNCTION_NAMES); discriminate.
      * congruence.
    + intros _. unfold namespace_of in Hn.
      destruct (startswith V1_NS id).
      * destruct (py_last_ok (py_split V1_NS id)) as (x & Hx & _); [apply py_split_not_nil|].
        rewrite Hx in Hn. discriminate.
      * destruct (startswith V2_NS id); [|auto].
        destruct (py_last_ok (py_split V2_NS id)) as (x & Hx & _); [apply py_split_not_nil|].
        rewrite Hx in Hn. discriminate.
  - intros [H1 H2]. unfold namespace_of. rewrite H1, H2. reflexivity.
Qed.

(** ** The standard catalogue *)
Lemma catalogue : forall id, In id FUNCTION_NAMES ->
  (In id IMPLEMENTED /\ exists f, resolve STD_CLASS_MAP id = Ok (FImpl f)) \/
  (~ In id IMPLEMENTED /\ resolve STD_CLASS_MAP id = Ok FNotImplemented).
Proof.
  assert (H : forallb (fun id =>
     match resolve STD_CLASS_MAP id with
     | Ok (FImpl _) => str_in id IMPLEMENTED
     | Ok FNotImplemented => negb (str_in id IMPLEMENTED)
     | _ => false
     end) FUNCTION_NAMES = true) by (vm_compute; reflexivity).
  rewrite forallb_forall in H. intros id Hin. specialize (H id Hin).
  destruct (resolve STD_CLASS_MAP id) as [[f|e|]|e]; try discriminate.
  - left. split; [|exists f; reflexivity]. unfold str_in in H. apply existsb_exists in H.
    destruct H as (x & Hx & He). apply String.eqb_eq in He. subst x. exact Hx.
  - right. split; [|reflexivity]. intros Hi. apply negb_true_iff in H. unfold str_in in H.
    assert (existsb (String.eqb id) IMPLEMENTED = true).
    { apply existsb_exists. exists id. split; [exact Hi|apply String.eqb_refl]. }
    congruence.
Qed.

Lemma implemented_standard : forall id, In id IMPLEMENTED -> In id FUNCTION_NAMES.
Proof.
  assert (H : forallb (fun id => str_in id FUNCTION_NAMES) IMPLEMENTED = true) by (vm_compute; reflexivity).
  rewrite forallb_forall in H. intros id Hi. specialize (H id Hi). unfold str_in in H.
  apply existsb_exists in H. destruct H as (x & Hx & He). apply String.eqb_eq in He. subst x. exact Hx.
Qed.

(** ** Histories *)
Lemma untouched_no_custom : forall ops id,
  (forall o, In o ops ->
     match o with FLoadCustom i _ | FSetItem i _ => i <> id | _ => True end) ->
  last_custom id ops = None.
Proof.
  intros ops id H. unfold last_custom.
  assert (Hgen : forall acc, acc = None -> fold_left (custom_effect id) ops acc = None).
  { induction ops as [|o ops IH]; intros acc ->; [reflexivity|]. cbn [fold_left].
    apply IH; [intros o' Ho'; apply H; right; exact Ho'|].
    specialize (H o (or_introl eq_refl)).
    destruct o as [i|i|i| |i src|i v|i]; cbn [custom_effect]; try reflexivity.
    - apply String.eqb_neq in H. rewrite H. reflexivity.
    - destruct v; [|reflexivity]. apply String.eqb_neq in H. rewrite H. reflexivity.
    - destruct (String.eqb i id); reflexivity. }
  apply Hgen. reflexivity.
Qed.

Lemma custom_last : forall before id src c after,
  ~ In id FUNCTION_NAMES -> yields src = Some c ->
  (forall o, In o after ->
     match o with
     | FLoadCustom i s => i = id -> yields s = None
     | FSetItem i v => i = id -> v = None
     | FDelItem i => i <> id
     | _ => True
     end) ->
  last_custom id (before ++ FLoadCustom id src :: after) = Some c.
Proof.
  intros before id src c after Hn Hy Ha. unfold last_custom.
  rewrite fold_left_app. cbn [fold_left].
  assert (Hs : str_in id FUNCTION_NAMES = false).
  { unfold str_in. destruct (existsb (String.eqb id) FUNCTION_NAMES) eqn:E; [|reflexivity].
    apply existsb_exists in E. destruct E as (x & Hx & He). apply String.eqb_eq in He. subst x.
    contradiction. }
  assert (H0 : forall acc, custom_effect id acc (FLoadCustom id src) = Some c).
  { intros acc. cbn [custom_effect]. rewrite String.eqb_refl, Hs, Hy. reflexivity. }
  rewrite H0. clear H0.
  induction after as [|o after IH]; [reflexivity|]. cbn [fold_left].
  assert (Ho : custom_effect id (Some c) o = Some c).
  { specialize (Ha o (or_introl eq_refl)).
    destruct o as [i|i|i| |i s|i v|i]; cbn [custom_effect]; try reflexivity.
    - destruct (String.eqb i id) eqn:E; [|reflexivity]. apply String.eqb_eq in E.
      rewrite (Ha E). destruct (negb (str_in id FUNCTION_NAMES)); reflexivity.
    - destruct v as [v|]; [|reflexivity]. destruct (String.eqb i id) eqn:E; [|reflexivity].
      apply String.eqb_eq in E. discriminate (Ha E).
    - apply String.eqb_neq in Ha. rewrite Ha. reflexivity. }
  rewrite Ho. apply IH. intros o' Ho'. apply Ha. right. exact Ho'.
Qed.
