(** String level utilities: boolean strings, the proxy bypass list, qualified
    names, and the URL made from a policy reference. *)
From Verif Require Import Base Strings.

(** str2Bool, ndg/xacml/utils/__init__.py:15 *)
Definition str2bool (s : string) : bool := str_in (py_lower s) ["yes"; "true"; "t"; "1"].

(** ** utils/urlfetcher.py *)

(** _should_use_proxy, urlfetcher.py:83-98.  [hostname] is
    urllib.parse.urlparse(url).hostname (None if the URL has no host), [no_proxy]
    the environment variable, empty if not set. *)
Definition should_use_proxy (hostname : option string) (no_proxy : string) : bool :=
  negb (existsb (fun np => match hostname with
                           | Some h => String.eqb h np
                           | None => false
                           end)
                (map py_strip (py_split "," no_proxy))).

(** ** QName, parsers/etree/__init__.py:70-163 *)
Definition open_brace : ascii := "{"%char.
Definition close_brace : ascii := "}"%char.
Definition newline : ascii := ascii_of_N 10.

(** [.*(?=\})] at the start of [s], greedy: the longest run of characters other
    than newline that a closing brace follows. *)
Fixpoint upto_brace (s : string) : option string :=
  match s with
  | EmptyString => None
  | String c s' =>
      match (if Ascii.eqb c newline then None
             else match upto_brace s' with
                  | Some u => Some (String c u)
                  | None => None
                  end) with
      | Some u => Some u
      | None => if Ascii.eqb c close_brace then Some "" else None
      end
  end.

(** [.+(?=\})] at the start of [s] *)
Definition dot_plus (s : string) : option string :=
  match s with
  | EmptyString => None
  | String c s' => if Ascii.eqb c newline then None
                   else match upto_brace s' with
                        | Some u => Some (String c u)
                        | None => None
                        end
  end.

(** [re.search('(?<=\{).+(?=\})', tag)]: the leftmost match *)
Fixpoint search_ns (s : string) : option string :=
  match s with
  | EmptyString => None
  | String c s' =>
      if Ascii.eqb c open_brace
      then match dot_plus s' with
           | Some u => Some u
           | None => search_ns s'
           end
      else search_ns s'
  end.

(** QName.getNs, parsers/etree/__init__.py:77-79: the match or [str()] *)
Definition get_ns (tag : string) : string :=
  match search_ns tag with Some u => u | None => "" end.

(** The text after the last closing brace. *)
Fixpoint after_brace (s : string) : option string :=
  match s with
  | EmptyString => None
  | String c s' =>
      match after_brace s' with
      | Some t => Some t
      | None => if Ascii.eqb c close_brace then Some s' else None
      end
  end.

(** QName.getLocalPart, parsers/etree/__init__.py:81: [tag.rsplit('}', 1)[-1]] *)
Definition get_local_part (tag : string) : string :=
  match after_brace tag with Some t => t | None => tag end.

Record qname := mkQName {
  qn_text : string;                       (* ElementTree.QName.text *)
  qn_ns : string;
  qn_local : string;
  qn_prefix : option string }.

(** QName.__init__, parsers/etree/__init__.py:83-107, with the constructor of the
    standard library's ElementTree.QName.  [tag] None or empty: [input] holds
    namespace and name. *)
Definition qname_new (input : string) (tag prefix : option string) : qname :=
  match tag with
  | Some (String c t) =>
      mkQName ("{" ++ input ++ "}" ++ String c t)%string input (String c t) prefix
  | _ => mkQName input (get_ns input) (get_local_part input) prefix
  end.

(** QName.__eq__, parsers/etree/__init__.py:160-174; [None] for an object that is
    not a QName. *)
Definition qname_eq (a : qname) (b : option qname) : res bool :=
  match b with
  | None => Raise ETypeError
  | Some b => Ok (String.eqb (qn_ns a) (qn_ns b) && String.eqb (qn_local a) (qn_local b))
  end.

(** QName.__ne__, parsers/etree/__init__.py:176-183 *)
Definition qname_ne (a : qname) (b : option qname) : res bool :=
  let* r := qname_eq a b in Ok (negb r).

(** ** UrlPolicyFinder._makeUrlFromReference, finder/urlpolicyfinder.py:105-140 *)

Fixpoint ends_with_slash (s : string) : bool :=
  match s with
  | EmptyString => false
  | String c EmptyString => Ascii.eqb c "/"
  | String _ s' => ends_with_slash s'
  end.

(** os.path.join(base, path) of posixpath; a base path of None is rejected. *)
Definition path_join (base : option string) (path : string) : res string :=
  match base with
  | None => Raise ETypeError
  | Some b =>
      if startswith "/" path then Ok path
      else if String.eqb b "" || ends_with_slash b then Ok (b ++ path)%string
      else Ok (b ++ "/" ++ path)%string
  end.

Definition make_url (base : option string) (reference : string) : res string :=
  if startswith "file://" reference then
    let path := str_drop (String.length "file://") reference in
    if startswith "./" path then
      let* j := path_join base (str_drop (String.length "./") path) in
      Ok ("file://" ++ j)%string
    else if negb (startswith "/" path) then
      let* j := path_join base path in Ok ("file://" ++ j)%string
    else Ok reference
  else if existsb (fun scheme => startswith scheme reference) ["ftp://"; "http://"; "https://"] then
    Ok reference
  else if startswith "/" reference then Ok ("file://" ++ reference)%string
  else let* j := path_join base reference in Ok ("file://" ++ j)%string.
