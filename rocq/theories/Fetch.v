(** Fetching documents: utils/urlfetcher.py, with the part of urllib.parse that it uses. *)
From Verif Require Import Base Strings Text.

(** ** urllib.parse.urlparse(url).hostname

    As in Python 3.11.  Simplification: only ASCII; [ip_ok] is the test of an address in
    brackets (ipaddress.ip_address). *)

Fixpoint str_filter (keep : ascii -> bool) (s : string) : string :=
  match s with
  | EmptyString => ""
  | String c s' => if keep c then String c (str_filter keep s') else str_filter keep s'
  end.
Fixpoint str_all (ok : ascii -> bool) (s : string) : bool :=
  match s with
  | EmptyString => true
  | String c s' => ok c && str_all ok s'
  end.
(** [s.lstrip(chars)] *)
Fixpoint lstrip_chars (drop : ascii -> bool) (s : string) : string :=
  match s with
  | EmptyString => ""
  | String c s' => if drop c then lstrip_chars drop s' else s
  end.
(** [s.partition(c)] *)
Fixpoint partition (c : ascii) (s : string) : string * bool * string :=
  match s with
  | EmptyString => ("", false, "")
  | String d s' =>
      if Ascii.eqb d c then ("", true, s')
      else let '(a, f, b) := partition c s' in (String d a, f, b)
  end.
(** [s.rpartition(c)[2]] *)
Fixpoint after_last (c : ascii) (s : string) : string :=
  match s with
  | EmptyString => ""
  | String d s' => if has_char c s' then after_last c s' else if Ascii.eqb d c then s' else s
  end.
(** up to the first of the characters that end a network location, _splitnetloc *)
Fixpoint upto_path (s : string) : string :=
  match s with
  | EmptyString => ""
  | String c s' =>
      if Ascii.eqb c "/" || Ascii.eqb c "?" || Ascii.eqb c "#" then "" else String c (upto_path s')
  end.

Definition code (c : ascii) : nat := nat_of_ascii c.
Definition is_alpha (c : ascii) : bool :=
  (Nat.leb 65 (code c) && Nat.leb (code c) 90) || (Nat.leb 97 (code c) && Nat.leb (code c) 122).
Definition is_scheme_char (c : ascii) : bool :=
  is_alpha c || (Nat.leb 48 (code c) && Nat.leb (code c) 57) ||
  Ascii.eqb c "+" || Ascii.eqb c "-" || Ascii.eqb c ".".
(** tab, line feed, carriage return *)
Definition is_unsafe (c : ascii) : bool :=
  Nat.eqb (code c) 9 || Nat.eqb (code c) 10 || Nat.eqb (code c) 13.

(** urlsplit up to the network location *)
Definition after_scheme (url : string) : string :=
  let '(pre, found, post) := partition ":" url in
  match pre with
  | EmptyString => url
  | String c _ => if found && is_alpha c && str_all is_scheme_char pre then post else url
  end.
Definition netloc_of (url : string) : string :=
  let url := str_filter (fun c => negb (is_unsafe c)) (lstrip_chars (fun c => Nat.leb (code c) 32) url) in
  let rest := after_scheme url in
  if startswith "//" rest then upto_path (str_drop 2 rest) else "".

Section Hostname.
Variable ip_ok : string -> bool.
Definition url_hostname (url : string) : res (option string) :=
  let netloc := netloc_of url in
  let opened := has_char "[" netloc in
  let closed := has_char "]" netloc in
  if xorb opened closed then Raise EValueError
  else
    let '(_, _, inner) := partition "[" netloc in
    let '(addr, _, _) := partition "]" inner in
    if opened && negb (ip_ok addr) then Raise EValueError
    else
      let hostinfo := after_last "@" netloc in
      let '(_, have_open_br, bracketed) := partition "[" hostinfo in
      let '(hostname, _, _) := if have_open_br then partition "]" bracketed else partition ":" hostinfo in
      match hostname with
      | EmptyString => Ok None
      | _ => let '(h, percent, zone) := partition "%" hostname in
             Ok (Some (py_lower h ++ (if percent : bool then "%" else "") ++ zone)%string)
      end.

(** ** The functions of urlfetcher.py *)

Inductive handler : Type := HttpHandler (debuglevel : nat) | EmptyProxyHandler.

(** What the opener does; the text is str(exc). *)
Inductive opened : Type :=
| Response (body : res string)
| HttpError (text : string)
| OpenError (e : exn).

(** An outcome; [GPlain] is [Exception(text)]. *)
Inductive got (A : Type) : Type :=
| Got (a : A)
| GPlain (text : string)
| GRaise (e : exn).
Arguments Got {A} a.
Arguments GPlain {A} text.
Arguments GRaise {A} e.

(** The calls of an opener so far, the responses that are not closed (a response is named
    by the number of calls before its own), and the environment variable no_proxy. *)
Record fetchw : Type := mkFetchw {
  fw_calls : list (list handler * string);
  fw_live : list nat;
  fw_no_proxy : option string
}.

Variable opener : list (list handler * string) -> list handler -> string -> opened.

(** open_url, urlfetcher.py:45-81 *)
Definition open_url (url : string) (debug : bool) (w : fetchw) : got (nat * res string) * fetchw :=
  let no_proxy := match fw_no_proxy w with Some s => s | None => "" end in
  match url_hostname url with
  | Raise e => (GRaise e, w)
  | Ok host =>
      let http := HttpHandler (if debug then 1 else 0) in
      let handlers := if should_use_proxy host no_proxy then [http] else [http; EmptyProxyHandler] in
      let n := length (fw_calls w) in
      let calls := fw_calls w ++ [(handlers, url)] in
      match opener (fw_calls w) handlers url with
      | Response body => (Got (n, body), mkFetchw calls (n :: fw_live w) (fw_no_proxy w))
      | HttpError text => (GPlain text, mkFetchw calls (fw_live w) (fw_no_proxy w))
      | OpenError e => (GRaise e, mkFetchw calls (fw_live w) (fw_no_proxy w))
      end
  end.

(** response.close() *)
Definition close_response (n : nat) (w : fetchw) : fetchw :=
  mkFetchw (fw_calls w) (filter (fun k => negb (Nat.eqb k n)) (fw_live w)) (fw_no_proxy w).

(** fetch_stream_from_url, urlfetcher.py:19-29 *)
Definition fetch_stream (url : string) (debug : bool) (w : fetchw) : got nat * fetchw :=
  match open_url url debug w with
  | (Got (n, _), w') => (Got n, w')
  | (GPlain t, w') => (GPlain t, w')
  | (GRaise e, w') => (GRaise e, w')
  end.

(** fetch_data_from_url, urlfetcher.py:31-43.  Simplification: closing does not raise. *)
Definition fetch_data (url : string) (debug : bool) (w : fetchw) : got string * fetchw :=
  match open_url url debug w with
  | (Got (n, body), w') =>
      match body with
      | Ok s => (Got s, close_response n w')
      | Raise e => (GRaise e, w')
      end
  | (GPlain t, w') => (GPlain t, w')
  | (GRaise e, w') => (GRaise e, w')
  end.

(** A process: calls of the functions, closing of streams by the caller, and changes of
    the environment. *)
Inductive fop : Type :=
| OpData (url : string) (debug : bool)
| OpStream (url : string) (debug : bool)
| OpClose (n : nat)
| OpEnv (v : option string).
Definition fop_step (o : fop) (w : fetchw) : fetchw :=
  match o with
  | OpData u d => snd (fetch_data u d w)
  | OpStream u d => snd (fetch_stream u d w)
  | OpClose n => close_response n w
  | OpEnv v => mkFetchw (fw_calls w) (fw_live w) v
  end.
Fixpoint fop_run (os : list fop) (w : fetchw) : fetchw :=
  match os with
  | [] => w
  | o :: rest => fop_run rest (fop_step o w)
  end.
End Hostname.
Arguments Got {A} a.
Arguments GPlain {A} text.
Arguments GRaise {A} e.
