(** Notions used in the statements about fetching by URL. *)
From Verif Require Import Base Strings Text SpecText Fetch.

(** ** URLs with a host *)

Definition lacks (bad : string) (s : string) : Prop :=
  forall c, has_char c bad = true -> has_char c s = false.
Definition tab_cr_lf : string :=
  String (ascii_of_nat 9) (String (ascii_of_nat 10) (String (ascii_of_nat 13) "")).

Inductive host : Type := Named (name : string) | Address (ip : string).
Record url_parts : Type := mkUrl {
  u_scheme : string;
  u_user : option string;
  u_host : host;
  u_port : option string;
  u_rest : string
}.

Definition letter (c : ascii) : Prop :=
  exists k, k < 26 /\ (c = ascii_of_nat (65 + k) \/ c = ascii_of_nat (97 + k)).
Definition digit (c : ascii) : Prop := exists k, k < 10 /\ c = ascii_of_nat (48 + k).

Definition scheme_ok (s : string) : Prop :=
  (exists c s', s = String c s' /\ letter c) /\
  forall c, has_char c s = true -> letter c \/ digit c \/ has_char c "+-." = true.
Definition host_ok (h : host) : Prop :=
  match h with
  | Named n => n <> "" /\ lacks ("/?#@:[]%" ++ tab_cr_lf) n
  | Address a => a <> "" /\ lacks ("/?#@[]%" ++ tab_cr_lf) a
  end.
Definition url_ok (u : url_parts) : Prop :=
  scheme_ok (u_scheme u) /\
  (forall s, u_user u = Some s -> lacks ("/?#[]" ++ tab_cr_lf) s) /\
  host_ok (u_host u) /\
  (forall s, u_port u = Some s -> lacks ("/?#@[]" ++ tab_cr_lf) s) /\
  (u_rest u = "" \/ exists c r, u_rest u = String c r /\ has_char c "/?#" = true).

Definition host_text (h : host) : string :=
  match h with Named n => n | Address a => ("[" ++ a ++ "]")%string end.
Definition host_name (h : host) : string := match h with Named n => n | Address a => a end.
Definition url_text (u : url_parts) : string :=
  (u_scheme u ++ "://" ++
   match u_user u with Some s => s ++ "@" | None => "" end ++
   host_text (u_host u) ++
   match u_port u with Some s => ":" ++ s | None => "" end ++
   u_rest u)%string.

(** [no_proxy], if set, has the entry [name]. *)
Definition listed (no_proxy : option string) (name : string) : Prop :=
  exists s l e, no_proxy = Some s /\ entries s l /\ In e l /\ trimmed e name.

(** ** Responses *)
Section Live.
Variable ip_ok : string -> bool.
Variable opener : list (list handler * string) -> list handler -> string -> opened.
Variable w0 : fetchw.

(** After [os]: the calls that were made. *)
Definition calls_after (os : list fop) : list (list handler * string) :=
  fw_calls (fop_run ip_ok opener os w0).

(** The operation leaves its response open if it gets one: it is fetch_stream_from_url, or
    fetch_data_from_url and reading fails. *)
Definition leaves_open (o : fop) (body : res string) : Prop :=
  match o with
  | OpStream _ _ => True
  | OpData _ _ => exists e, body = Raise e
  | _ => False
  end.

(** The [n]th call was made by an operation of [os] which left its response open, and the
    caller has not closed it since. *)
Definition unclosed (os : list fop) (n : nat) : Prop :=
  exists os1 o os2 hs url body,
    os = (os1 ++ o :: os2)%list /\
    calls_after (os1 ++ [o]) = (calls_after os1 ++ [(hs, url)])%list /\
    List.length (calls_after os1) = n /\
    opener (calls_after os1) hs url = Response body /\
    leaves_open o body /\
    ~ In (OpClose n) os2.
End Live.
