(** Facts about the string functions of Strings.v. *)
From Verif Require Import Strings.
From Coq Require Import Lia.

Lemma app_empty_r : forall s : string, (s ++ "")%string = s.
Proof. induction s as [|c s IH]; simpl; [reflexivity|rewrite IH; reflexivity]. Qed.

Lemma app_assoc_s : forall a b c : string, ((a ++ b) ++ c)%string = (a ++ (b ++ c))%string.
Proof. induction a as [|x a IH]; intros b c; simpl; [reflexivity|rewrite IH; reflexivity]. Qed.

Lemma app_length_s : forall a b, String.length (a ++ b) = String.length a + String.length b.
Proof. induction a as [|x a IH]; intros b; simpl; [reflexivity|rewrite IH; reflexivity]. Qed.

Lemma app_inv_head_s : forall a b c : string, (a ++ b)%string = (a ++ c)%string -> b = c.
Proof.
  induction a as [|x a IH]; intros b c H; simpl in H; [exact H|].
  injection H as H. apply IH, H.
Qed.

Lemma app_inj_length : forall a b c d : string,
  (a ++ b)%string = (c ++ d)%string -> String.length a = String.length c -> a = c /\ b = d.
Proof.
  induction a as [|x a IH]; intros b [|y c] d H Hl; simpl in *; try discriminate.
  - split; [reflexivity|exact H].
  - injection H as -> H. destruct (IH b c d H) as [-> ->]; [lia|]. split; reflexivity.
Qed.

Lemma app_inv_tail_s : forall a b c : string, (b ++ a)%string = (c ++ a)%string -> b = c.
Proof.
  intros a b c H. destruct (app_inj_length b a c a H) as [-> _]; [|reflexivity].
  apply (f_equal String.length) in H. rewrite !app_length_s in H. lia.
Qed.

Lemma app_eq_empty : forall a b : string, (a ++ b)%string = "" -> a = "" /\ b = "".
Proof. intros [|x a] [|y b] H; simpl in H; try discriminate; auto. Qed.

Lemma prefix_app : forall p s, String.prefix p (p ++ s) = true.
Proof.
  induction p as [|x p IH]; intros s; [destruct s; reflexivity|].
  simpl. destruct (ascii_dec x x) as [_|n]; [apply IH|contradiction].
Qed.

Lemma prefix_true_iff : forall p s, String.prefix p s = true <-> exists t, s = (p ++ t)%string.
Proof.
  split.
  - revert s. induction p as [|x p IH]; intros s H; [exists s; reflexivity|].
    destruct s as [|y s]; [discriminate|]. simpl in H.
    destruct (ascii_dec x y) as [<-|n]; [|discriminate].
    destruct (IH s H) as [t ->]. exists t. reflexivity.
  - intros [t ->]. apply prefix_app.
Qed.

Lemma prefix_false_iff : forall p s,
  String.prefix p s = false <-> forall t, s <> (p ++ t)%string.
Proof.
  intros p s. split.
  - intros H t ->. rewrite prefix_app in H. discriminate.
  - intros H. destruct (String.prefix p s) eqn:E; [|reflexivity].
    apply prefix_true_iff in E. destruct E as [t ->]. exfalso. apply (H t). reflexivity.
Qed.

Lemma str_drop_length : forall n s, String.length (str_drop n s) = String.length s - n.
Proof.
  induction n as [|n IH]; intros [|c s]; simpl; auto.
Qed.

Lemma str_drop_app : forall p s, str_drop (String.length p) (p ++ s) = s.
Proof.
  induction p as [|x p IH]; intros s; [destruct s; reflexivity|apply IH].
Qed.

Lemma str_drop_empty : forall n, str_drop n "" = "".
Proof. destruct n; reflexivity. Qed.

(** ** has_char *)
Lemma has_char_app : forall c a b, has_char c (a ++ b) = has_char c a || has_char c b.
Proof.
  induction a as [|x a IH]; intros b; simpl; [reflexivity|].
  rewrite IH, orb_assoc. reflexivity.
Qed.

Lemma has_char_split : forall c s,
  has_char c s = true -> exists a b, s = (a ++ String c b)%string /\ has_char c a = false.
Proof.
  induction s as [|x s IH]; intros H; simpl in H; [discriminate|].
  destruct (Ascii.eqb c x) eqn:E.
  - apply Ascii.eqb_eq in E. subst x. exists "", s. split; reflexivity.
  - simpl in H. destruct (IH H) as (a & b & -> & Ha). exists (String x a), b.
    split; [reflexivity|]. simpl. rewrite E. exact Ha.
Qed.

(** ** py_split *)

Lemma split_skip : forall sep k acc s,
  split_go sep k acc s = split_go sep 0 acc (str_drop k s).
Proof.
  induction k as [|k IH]; intros acc s; [destruct s; reflexivity|].
  destruct s as [|c s]; [reflexivity|]. simpl. apply IH.
Qed.

(** One step of the scan. *)
Lemma split_unfold : forall x sep acc s,
  split_go (String x sep) 0 acc s =
  if String.prefix (String x sep) s
  then acc :: py_split (String x sep) (str_drop (String.length (String x sep)) s)
  else match s with
       | EmptyString => [acc]
       | String c s' => split_go (String x sep) 0 (acc ++ String c "")%string s'
       end.
Proof.
  intros x sep acc s. destruct s as [|c s']; [reflexivity|].
  cbn [split_go]. destruct (String.prefix (String x sep) (String c s')); [|reflexivity].
  rewrite split_skip. simpl. rewrite Nat.sub_0_r. reflexivity.
Qed.

(** [sep] occurs nowhere in [s]. *)
Definition no_sub (sep s : string) : Prop :=
  forall a b, s <> (a ++ sep ++ b)%string.

Lemma no_sub_cons : forall sep c s, no_sub sep (String c s) -> no_sub sep s.
Proof. intros sep c s H a b ->. apply (H (String c a) b). reflexivity. Qed.

Lemma split_acc : forall x sep n s acc, String.length s <= n ->
  exists f rest, split_go (String x sep) 0 acc s = (acc ++ f)%string :: rest /\
    ((rest = [] /\ s = f /\ no_sub (String x sep) s) \/
     (exists t, s = (f ++ String x sep ++ t)%string /\ rest = py_split (String x sep) t /\
                forall a b, (f ++ String x sep)%string = (a ++ String x sep ++ b)%string -> a = f)).
Proof.
  induction n as [|n IH]; intros s acc Hn; rewrite split_unfold.
  - destruct s as [|c s]; [|simpl in Hn; lia]. simpl.
    exists "", []. rewrite app_empty_r. split; [reflexivity|]. left.
    split; [reflexivity|]. split; [reflexivity|].
    intros a b H. apply (f_equal String.length) in H. rewrite !app_length_s in H. simpl in H. lia.
  - destruct (String.prefix (String x sep) s) eqn:E.
    + apply prefix_true_iff in E. destruct E as [t ->].
      rewrite str_drop_app.
      exists "", (py_split (String x sep) t). rewrite app_empty_r. split; [reflexivity|]. right.
      exists t. split; [reflexivity|]. split; [reflexivity|].
      intros a b H. apply (f_equal String.length) in H. rewrite !app_length_s in H.
      simpl in H. destruct a; [reflexivity|simpl in H; lia].
    + destruct s as [|c s].
      * exists "", []. rewrite app_empty_r. split; [reflexivity|]. left.
        split; [reflexivity|]. split; [reflexivity|].
        intros a b H. apply (f_equal String.length) in H. rewrite !app_length_s in H. simpl in H. lia.
      * destruct (IH s (acc ++ String c "")%string) as (f & rest & Hf & Hcase); [simpl in Hn; lia|].
        exists (String c f), rest. split.
        { rewrite Hf, app_assoc_s. reflexivity. }
        destruct Hcase as [(-> & -> & Hno)|(t & -> & -> & Hmin)].
        -- left. split; [reflexivity|]. split; [reflexivity|].
           intros a b H. destruct a as [|y a].
           ++ rewrite prefix_false_iff in E. apply (E b). exact H.
           ++ simpl in H. injection H as _ H. apply (Hno a b H).
        -- right. exists t. split; [reflexivity|]. split; [reflexivity|].
           intros a b H. destruct a as [|y a].
           ++ exfalso. rewrite prefix_false_iff in E. apply (E (b ++ t)%string).
              assert (H' : (String c f ++ String x sep ++ t)%string =
                           (("" ++ String x sep ++ b) ++ t)%string)
                by (rewrite <- H, app_assoc_s; reflexivity).
              rewrite !app_assoc_s in H'. exact H'.
           ++ simpl in H. injection H as -> H. f_equal. apply (Hmin a b). exact H.
Qed.

(** The first part of a split: everything up to the first occurrence. *)
Lemma split_first : forall x sep s,
  exists f rest, py_split (String x sep) s = f :: rest /\
    ((rest = [] /\ s = f /\ no_sub (String x sep) s) \/
     (exists t, s = (f ++ String x sep ++ t)%string /\ rest = py_split (String x sep) t /\
                forall a b, (f ++ String x sep)%string = (a ++ String x sep ++ b)%string -> a = f)).
Proof.
  intros x sep s. destruct (split_acc x sep (String.length s) s "" (le_n _)) as (f & rest & H & Hc).
  exists f, rest. split; [exact H|exact Hc].
Qed.

Lemma py_split_not_nil : forall x sep s, py_split (String x sep) s <> [].
Proof.
  intros x sep s. destruct (split_first x sep s) as (f & rest & H & _). rewrite H. discriminate.
Qed.

(** Joining what was split gives the string back. *)
Lemma join_split : forall x sep s, py_join (String x sep) (py_split (String x sep) s) = s.
Proof.
  intros x sep s. remember (String.length s) as n eqn:Hn.
  assert (Hle : String.length s <= n) by lia. clear Hn. revert s Hle.
  induction n as [|n IH]; intros s Hle; destruct (split_first x sep s) as (f & rest & H & Hc);
    rewrite H; destruct Hc as [(-> & -> & _)|(t & -> & -> & _)]; try reflexivity.
  - rewrite !app_length_s in Hle. simpl in Hle. lia.
  - rewrite !app_length_s in Hle. simpl in Hle.
    destruct (split_first x sep t) as (f' & rest' & H' & _).
    specialize (IH t). rewrite H' in *. cbn [py_join]. cbn [py_join] in IH.
    rewrite IH by lia. reflexivity.
Qed.

Lemma split_no_sub : forall x sep s, no_sub (String x sep) s -> py_split (String x sep) s = [s].
Proof.
  intros x sep s Hno. destruct (split_first x sep s) as (f & rest & H & Hc). rewrite H.
  destruct Hc as [(-> & -> & _)|(t & -> & _ & _)]; [reflexivity|].
  exfalso. apply (Hno f t). reflexivity.
Qed.

Lemma no_sub_char : forall c s, has_char c s = false <-> no_sub (String c "") s.
Proof.
  split.
  - intros H a b ->. rewrite has_char_app in H. simpl in H. rewrite Ascii.eqb_refl in H.
    rewrite orb_true_r in H. discriminate.
  - intros H. destruct (has_char c s) eqn:E; [|reflexivity].
    apply has_char_split in E. destruct E as (a & b & -> & _). exfalso. apply (H a b). reflexivity.
Qed.

Lemma split_char_none : forall c s, has_char c s = false -> py_split (String c "") s = [s].
Proof. intros c s H. apply split_no_sub, no_sub_char, H. Qed.

(** Splitting at a single character. *)
Lemma split_char_app : forall c a b, has_char c a = false ->
  py_split (String c "") (a ++ String c b) = a :: py_split (String c "") b.
Proof.
  intros c a b Ha. destruct (split_first c "" (a ++ String c b)) as (f & rest & H & Hc).
  rewrite H. destruct Hc as [(_ & _ & Hno)|(t & He & -> & Hmin)].
  - exfalso. apply (Hno a b). reflexivity.
  - assert (Hf : has_char c f = false).
    { destruct (has_char c f) eqn:E; [|reflexivity].
      apply has_char_split in E. destruct E as (u & v & -> & _).
      assert (u = (u ++ String c v)%string).
      { apply (Hmin u (v ++ String c "")%string). rewrite app_assoc_s. reflexivity. }
      apply (f_equal String.length) in H0. rewrite app_length_s in H0. simpl in H0. lia. }
    assert (f = a /\ t = b).
    { clear -He Ha Hf. revert a He Ha. induction f as [|x f IH]; intros [|y a] He Ha; simpl in *.
      - injection He as ->. split; reflexivity.
      - injection He as -> _. rewrite Ascii.eqb_refl in Ha. discriminate.
      - injection He as -> _. rewrite Ascii.eqb_refl in Hf. discriminate.
      - injection He as -> He. apply orb_false_iff in Ha, Hf. destruct Ha, Hf.
        destruct (IH H2 a He H0) as [-> ->]. split; reflexivity. }
    destruct H0 as [-> ->]. reflexivity.
Qed.

(** ** py_last *)
Lemma py_last_app : forall l x, py_last (l ++ [x]) = Ok x.
Proof. intros l x. unfold py_last. rewrite rev_app_distr. reflexivity. Qed.

Lemma py_last_cons : forall x l, l <> [] -> py_last (x :: l) = py_last l.
Proof.
  intros x l Hl. destruct (exists_last Hl) as (l' & y & ->).
  rewrite app_comm_cons, !py_last_app. reflexivity.
Qed.

Lemma py_last_ok : forall l, l <> [] -> exists x, py_last l = Ok x /\ In x l.
Proof.
  intros l Hl. destruct (exists_last Hl) as (l' & y & ->). exists y.
  split; [apply py_last_app|]. apply in_or_app. right. left. reflexivity.
Qed.

(** The part after the last separator. *)
Lemma last_split : forall x sep s,
  exists n, py_last (py_split (String x sep) s) = Ok n /\
    ((s = n) \/ exists a, s = (a ++ String x sep ++ n)%string) /\ no_sub (String x sep) n.
Proof.
  intros x sep s. remember (String.length s) as k eqn:Hk.
  assert (Hle : String.length s <= k) by lia. clear Hk. revert s Hle.
  induction k as [|k IH]; intros s Hle; destruct (split_first x sep s) as (f & rest & H & Hc);
    rewrite H; destruct Hc as [(-> & -> & Hno)|(t & -> & -> & _)].
  - exists f. split; [reflexivity|]. split; [left; reflexivity|exact Hno].
  - rewrite !app_length_s in Hle. simpl in Hle. lia.
  - exists f. split; [reflexivity|]. split; [left; reflexivity|exact Hno].
  - rewrite !app_length_s in Hle. simpl in Hle.
    destruct (IH t) as (n & Hn & Hs & Hno); [lia|]. exists n.
    rewrite py_last_cons by apply py_split_not_nil. split; [exact Hn|]. split; [|exact Hno].
    right. destruct Hs as [->|[a ->]].
    + exists f. reflexivity.
    + exists (f ++ String x sep ++ a)%string. rewrite !app_assoc_s. reflexivity.
Qed.

Lemma last_split_char : forall c a b,
  py_last (py_split (String c "") (a ++ String c b)) = py_last (py_split (String c "") b).
Proof.
  intros c a b. remember (String.length a) as k eqn:Hk.
  assert (Hle : String.length a <= k) by lia. clear Hk. revert a Hle.
  induction k as [|k IH]; intros a Hle.
  - destruct a as [|y a]; [|simpl in Hle; lia].
    rewrite (split_char_app c "" b eq_refl). apply py_last_cons, py_split_not_nil.
  - destruct (has_char c a) eqn:E.
    + apply has_char_split in E. destruct E as (u & v & -> & Hu).
      rewrite app_assoc_s. cbn [append]. rewrite split_char_app by exact Hu.
      rewrite py_last_cons by apply py_split_not_nil. apply IH.
      rewrite app_length_s in Hle. simpl in Hle. lia.
    + rewrite split_char_app by exact E. apply py_last_cons, py_split_not_nil.
Qed.

Lemma last_split_none : forall c s, has_char c s = false ->
  py_last (py_split (String c "") s) = Ok s.
Proof. intros c s H. rewrite split_char_none by exact H. reflexivity. Qed.
