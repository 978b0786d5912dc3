(** Several threads of one process loading policies with one finder object.

    A thread is a program whose steps are the operations on what the threads share: the
    lookups ([in] and [get]) and the item assignments on the two dicts of the finder,
    each atomic in Python, and the fetching of a document.  What happens between two such
    steps (parsing, building the policy objects) acts on the thread's own objects.
    addPolicyReference (finder/policyfinderbase.py:63-72) tests for the key and assigns in
    two steps. *)
From Verif Require Export Sources EvalThreads.

(** policyMap or policySetMap *)
Inductive pmap : Type := InPolicies | InSets.

Inductive FT (A : Type) : Type :=
| FDone (r : res A)
| FLook (m : pmap) (k : option string) (c : option policybase -> FT A)
| FPut (m : pmap) (k : option string) (p : policybase) (c : FT A)
| FFetch (url : string) (c : res node -> FT A).
Arguments FDone {A} r.
Arguments FLook {A} m k c.
Arguments FPut {A} m k p c.
Arguments FFetch {A} url c.

(** [x], then [f] on its outcome. *)
Fixpoint then_f {A B} (x : FT A) (f : res A -> FT B) : FT B :=
  match x with
  | FDone r => f r
  | FLook m k c => FLook m k (fun o => then_f (c o) f)
  | FPut m k p c => FPut m k p (then_f c f)
  | FFetch u c => FFetch u (fun r => then_f (c r) f)
  end.
Definition bind_f {A B} (x : FT A) (f : A -> FT B) : FT B :=
  then_f x (fun r => match r with Ok a => f a | Raise e => FDone (Raise e) end).
Notation "'let?' x ':=' e1 'in' e2" := (bind_f e1 (fun x => e2))
  (at level 200, x pattern, e1 at level 100, e2 at level 200, right associativity).

(** addPolicyReference and addPolicySetReference, finder/policyfinderbase.py:63-83 *)
Definition add_policy_t (p : policybase) : FT unit :=
  match p with
  | PPolicy m _ _ _ =>
      FLook InPolicies (pm_id m) (fun o =>
        match o with
        | Some _ => FDone (Raise EXMLParseError)
        | None => FPut InPolicies (pm_id m) p (FDone (Ok tt))
        end)
  | PPolicySet _ _ _ _ => FDone (Raise EAttributeError)
  end.
Definition add_policy_set_t (p : policybase) : FT unit :=
  match p with
  | PPolicySet m _ _ _ =>
      FLook InSets (pm_id m) (fun o =>
        match o with
        | Some _ => FDone (Raise EXMLParseError)
        | None => FPut InSets (pm_id m) p (FDone (Ok tt))
        end)
  | PPolicy _ _ _ _ => FDone (Raise EAttributeError)
  end.

Section Sets.
Variable E : renv.
Variable fd : finder.
Variable nested : node -> FT policybase.

(** policyreader.py:61-152 *)
Definition read_policy_t (n : node) : FT policybase :=
  let? p := FDone (read_policy E n) in
  let? _ := add_policy_t p in
  FDone (Ok p).

(** UrlPolicyFinder._findPolicyFromReference, urlpolicyfinder.py:88-103 *)
Definition find_from_reference_t (base : option string) (ref : option string) : FT unit :=
  match ref with
  | None => FDone (Raise EAttributeError)
  | Some r =>
      let? url := FDone (make_url base r) in
      let? d := FFetch url FDone in
      let? _ := nested d in
      FDone (Ok tt)
  end.

(** findPolicy and findPolicySet, localpolicyfinder.py:20-48, urlpolicyfinder.py:43-86 *)
Definition find_t (m : pmap) (ref : option string) : FT policybase :=
  let lookup : FT policybase :=
    FLook m ref (fun o => match o with
                          | Some p => FDone (Ok p)
                          | None => FDone (Raise EXMLParseError)
                          end) in
  match fd with
  | LocalFinder => lookup
  | UrlFinder base =>
      let? _ := FLook m ref (fun o => match o with
                                      | Some _ => FDone (Ok tt)
                                      | None => find_from_reference_t base ref
                                      end) in
      lookup
  end.

(** PolicySetReader.processElement, policysetreader.py:46-151 *)
Fixpoint read_set_t (n : node) : FT policybase :=
  match n with
  | Comment _ => FDone (Raise EAttributeError)
  | Elem tag attrs text kids =>
      if negb (String.eqb (get_local_part tag) "PolicySet") then FDone (Raise EXMLParseError)
      else
        let? id := FDone (required n "PolicySetId") in
        let? algId := FDone (required n "PolicyCombiningAlgId") in
        let? alg := FDone (policy_alg_of algId) in
        let? a :=
          (fix go (ks : list node) (a : sacc) : FT sacc :=
             match ks with
             | [] => FDone (Ok a)
             | k :: rest =>
                 match k with
                 | Comment _ => go rest a
                 | Elem t _ _ _ =>
                     let l := get_local_part t in
                     let? a' :=
                       (if String.eqb l "Description" then
                          FDone (Ok (mkSacc (description_of k (sc_description a)) (sc_target a)
                                       (sc_policies a)))
                        else if String.eqb l "PolicySetDefaults" then
                          FDone (let* _ := read_defaults k in Raise EAttributeError)
                        else if String.eqb l "Target" then
                          FDone (let* t := read_target E k in
                                 Ok (mkSacc (sc_description a) (Some t) (sc_policies a)))
                        else if String.eqb l "CombinerParameters" then
                          FDone (Raise ENotImplementedError)
                        else if String.eqb l "PolicyCombinerParameters" then
                          FDone (Raise ENotImplementedError)
                        else if String.eqb l "PolicySetCombinerParameters" then
                          FDone (Raise ENotImplementedError)
                        else if String.eqb l "VariableDefinition" then FDone (Raise EImportError)
                        else if String.eqb l "Policy" then
                          let? p := read_policy_t k in FDone (Ok (sacc_add a p))
                        else if String.eqb l "PolicyIdReference" then
                          let? p := find_t InPolicies (el_text k) in FDone (Ok (sacc_add a p))
                        else if String.eqb l "PolicySet" then
                          let? p := read_set_t k in FDone (Ok (sacc_add a p))
                        else if String.eqb l "PolicySetIdReference" then
                          let? p := find_t InSets (el_text k) in FDone (Ok (sacc_add a p))
                        else if String.eqb l "Obligations" then FDone (Raise ENotImplementedError)
                        else FDone (Raise EXMLParseError)) in
                     go rest a'
                 end
             end) kids (mkSacc None None []) in
        let p := PPolicySet (mkMeta (Some id) (Some (version_of n)) (Some algId)
                               (sc_description a) None)
                   (sc_target a) (Some alg) (sc_policies a) in
        let? _ := add_policy_set_t p in
        FDone (Ok p)
  end.
End Sets.

(** PolicyBaseReader, policybasereader.py:30-55 *)
Fixpoint read_doc_t (limit : nat) (E : renv) (fd : finder) (n : node) : FT policybase :=
  match limit with
  | O => FDone (Raise ERecursionError)
  | S limit' =>
      let? l := FDone (local_name n) in
      if String.eqb l "Policy" then read_policy_t E n
      else if String.eqb l "PolicySet" then read_set_t E fd (read_doc_t limit' E fd) n
      else FDone (Raise EXMLParseError)
  end.

(** A thread: PolicyBase.fromSource (policybase.py:45-79) on one element after the other;
    the caller handles exceptions. *)
Fixpoint loads_t (limit : nat) (E : renv) (fd : finder) (docs : list node)
  : FT (list (res policybase)) :=
  match docs with
  | [] => FDone (Ok [])
  | d :: rest =>
      then_f (read_doc_t limit E fd d) (fun r =>
        let? rs := loads_t limit E fd rest in
        FDone (Ok (r :: rs)))
  end.

(** ** Running threads *)

Definition map_at (m : pmap) (g : registry) : list (option string * policybase) :=
  match m with InPolicies => rg_policies g | InSets => rg_sets g end.

(** d[k] = p, for the two dicts *)
Fixpoint key_put (k : option string) (p : policybase) (d : list (option string * policybase))
  : list (option string * policybase) :=
  match d with
  | [] => [(k, p)]
  | (k', q) :: d' => if opt_eqb String.eqb k k' then (k', p) :: d' else (k', q) :: key_put k p d'
  end.
Definition put_at (m : pmap) (k : option string) (p : policybase) (g : registry) : registry :=
  match m with
  | InPolicies => mkRegistry (key_put k p (rg_policies g)) (rg_sets g)
  | InSets => mkRegistry (rg_policies g) (key_put k p (rg_sets g))
  end.

Section Run.
(** What a URL gives, when the URLs of the list have been fetched before. *)
Variable web : list string -> string -> res node.

(** One step of a thread. *)
Definition step_f {A} (x : FT A) (s : fstate) : FT A * fstate :=
  match x with
  | FDone r => (FDone r, s)
  | FLook m k c => (c (key_get k (map_at m (fs_reg s))), s)
  | FPut m k p c => (c, mkFstate (put_at m k p (fs_reg s)) (fs_fetched s))
  | FFetch u c => (c (web (fs_fetched s) u), mkFstate (fs_reg s) (fs_fetched s ++ [u]))
  end.

(** A schedule says which thread makes the next step. *)
Definition schedule_step_f {A} (i : nat) (s : list (FT A) * fstate) : list (FT A) * fstate :=
  match nth_error (fst s) i with
  | None => s
  | Some x => let '(x', g') := step_f x (snd s) in (replace_nth i x' (fst s), g')
  end.
Fixpoint run_schedule_f {A} (sched : list nat) (s : list (FT A) * fstate) : list (FT A) * fstate :=
  match sched with
  | [] => s
  | i :: rest => run_schedule_f rest (schedule_step_f i s)
  end.

(** One thread alone, to its end. *)
Fixpoint run_alone_f {A} (x : FT A) (s : fstate) : res A * fstate :=
  match x with
  | FDone r => (r, s)
  | FLook m k c => run_alone_f (c (key_get k (map_at m (fs_reg s)))) s
  | FPut m k p c => run_alone_f c (mkFstate (put_at m k p (fs_reg s)) (fs_fetched s))
  | FFetch u c => run_alone_f (c (web (fs_fetched s) u)) (mkFstate (fs_reg s) (fs_fetched s ++ [u]))
  end.
End Run.
