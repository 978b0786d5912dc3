# Formal model of ndg_xacml in Rocq (Coq 8.16.1)

## Approach

The model is a set of small, total, computable Gallina functions that mirror
the Python functions branch by branch.  Exceptions are values (`res A := Ok a |
Raise e`), objects are records, class identity is a name, property setters are
functions from old state to new state plus outcome, and loops are structural
recursion.  External collaborators (the PIP behind the context handler, the
regular expression engine, the XPath engine, custom functions, remote document
fetching) are function arguments of the model, never axioms; every theorem
quantifies over all of them.

Layout of `rocq/theories`:

* `*.v` model files: definitions only, each with a comment citing the source
  file and lines it models and any simplification.
* `Spec*.v`: small declarative specifications that do not mention the model's
  helpers.
* `*Facts.v`: proofs.
* `Properties*.v`: the theorems claimed in `MANIFEST.json`, each with
  `Print Assumptions` and with `Example`s showing that its hypotheses are met by
  concrete non trivial cases.

## Properties: what is modelled and how it is proved

* **C01 Deny-overrides combines rules exactly as specified.** Model of `DenyOverridesRuleCombiningAlg.evaluate` as a loop with the three flags over (effect, decision) producers; proved equal to a declarative decision relation by induction with the flags generalised.
* **C02 Permit-overrides combines rules exactly as specified.** As C01 for permit-overrides.
* **C03 First-applicable returns the first decision that is not NotApplicable (rules).** Loop with early return; induction gives the split `prefix of NotApplicable ++ first decisive :: rest`.
* **C04 Deny-overrides over policies treats Indeterminate as Deny.** As C01 for the policy level algorithm.
* **C05 Permit-overrides over policies.** As C04.
* **C06 First-applicable over policies.** As C03.
* **C07 Override algorithms do not depend on the order of rules or policies.** Corollary of the declarative characterisations (they only mention membership), lifted to Policy.evaluate / PolicySet.evaluate through `Permutation`; a refutation witness for first-applicable.
* **C08 No algorithm invents a Permit or a Deny.** Structural induction over the policy tree with a 'reason' relation that names the rule responsible.
* **C09 Rule evaluation decision table.** Model of `Rule.evaluate` as match on results of target and condition; theorem is a case characterisation in terms of the target's and condition's outcome.
* **C10 Evaluation faults are contained as Indeterminate.** Exceptions carry the distinction Exception / BaseException; structural induction over policy trees.
* **C11 Target matching is AND of sections, OR of alternatives, AND of matches.** Model of the nested loops with status lists; equivalence with forall/exists/forall.
* **C12 Target matching never hides an error.** First-error theorem over the flattened list of matches in document order.
* **C13 A match is true exactly when some retrieved value satisfies its function.** Model of the loop over the bag with results list and `any`.
* **C14 Subject designator returns exactly the matching values.** Model of the loops; equivalence with a filter/flat_map specification plus a membership characterisation.
* **C15 Resource, action and environment designators return exactly the matching values.** As C14 for the three other sections.
* **C16 MustBePresent fails exactly on an empty result.** Case analysis on the final check, for designators and selector.
* **C17 Values from the attribute source only add to the request's values.** The PIP is a function argument; induction over the subjects; query log in the instrumented (stateful) evaluator.
* **C18 Bags are type homogeneous.** Invariant: the bag is only changed through the type checking extend/append.
* **C19 Attribute selector turns each selected text into a typed value.** XPath selection is a function argument; induction over the selected texts.
* **C20 Function application is strict and left to right.** Nested inductive expression type; own induction principle; big-step evaluation relation in the specification proved equivalent.
* **C21 and / not functions.** Direct induction over argument list.
* **C22 equal and match functions decide value equality of one type.** Native values with Python equality (bool/int/float cross comparison included); algebraic laws.
* **C23 one-and-only inverts bag of one.** Direct.
* **C24 at-least-one-member-of decides intersection.** Set intersection over native values modelled by Python equality.
* **C25 Concatenation.** Induction over the argument list.
* **C26 Regular expression cache is transparent.** State machine over the class level cache; invariant 'cache entry = compile key'; refinement to the cacheless function for all histories.
* **C27 Function identifiers resolve deterministically and soundly.** String functions (split, startswith, lower, capitalise) modelled concretely; resolution function; finite catalogue computed completely and lifted with forallb_forall; laws for all strings.
* **C28 Function map caching is transparent.** State machine for FunctionMap (map and factory cache); invariant and refinement for all operation sequences.
* **C29 Standard functions cannot be replaced by custom loading.** Same state machine with custom loading.
* **C30 Setting the combining algorithm id.** Setter state machines for Policy and PolicySet; induction over assignment sequences.
* **C31 A match never holds both a designator and a selector.** Setter state machine; induction.
* **C32 Function loading on assignment of a match or function id.** Setter state machine over function map; induction.
* **C33 Attribute values always hold a value of their native type.** Setter state machine; Python isinstance on natives modelled (bool is an int).
* **C34 Attribute value equality.** Direct on the equality model.
* **C35 Attribute value class registry.** State machine for the class map; induction.
* **C36 TypedList keeps only elements of its type through append, extend and +=.** State machine for TypedList; induction over operations.
* **C37 UniqList append never introduces a duplicate.** State machine for UniqList with abstract decidable equality; induction; refutation witness for extend.
* **C38 VettedDict stores only what its filters accept.** State machine with arbitrary filters (which may raise); induction; refinement to a partial map.
* **C39 RestrictedKeyNamesDict never gains a key.** State machine; induction.
* **C40 Effects and decisions stay in their vocabulary.** Setter state machines for Effect, Decision, StatusCode.
* **C41 Shared decision objects are not protected against assignment.** Heap model in which the four shared objects are locations; programs are sequences of evaluate / assign; invariant without assignments and witness with.
* **C42 A response has exactly one result carrying the policy's decision.** Direct from the evaluateResponse and PDP models.
* **C43 Reading a policy preserves every rule in document order.** Readers modelled over an element tree type with comments (Readers.v); SpecRead.v says, without the reader, which policy a document means (policy_doc); the reader succeeds exactly on those, by induction over trees and folds over children.
* **C44 Reading inverts writing for every expressible policy.** Canonical writer is part of the specification; round trip by induction over the policy syntax (expressions: nested induction).
* **C45 Policy set reading and reference resolution.** Reader with finder state threaded; SpecRead.v defines the relation reads (order, known policies, URLs); soundness and completeness of the reader, then induction over the relation.
* **C46 Policy registries never hold two policies under one id.** State machine for the finder maps.
* **C47 Remote references: fetched once, cycles never accepted.** Reader with a limit on nested documents, RecursionError a distinct outcome; monotonicity in the limit; fetching once and rejection of cycles by induction over the relation reads of C45.
* **C48 Reference to URL construction.** Direct string model.
* **C49 Request serialisation round trip.** toXML and fromXML modelled over element trees for both element implementations (ContextXml.v); SpecContext.v says which requests are sendable and what is received; every written element is shown to mean what was written (document relation of C60), hence an equivalence; the decisions follow from C59.
* **C50 Response serialisation round trip.** As C49, with the document relation of C61.
* **C51 Condition truth is Python truth.** Direct from the Rule model.
* **C52 String to boolean conversion.** String model with ASCII lower casing.
* **C53 Proxy bypass list.** String model of split and strip.
* **C54 Qualified name handling.** String model of rsplit and of the regular expression used.
* **C55 Context errors carry one indeterminate result.** Direct.
* **C56 Irrelevant request attributes do not matter.** Relational proof: designators depend only on relevant attributes, then congruence through the whole evaluator by induction.
* **C57 Decisions do not depend on the order of request contents.** Logical relation (bags up to permutation, errors up to kind) preserved by every built in function and by the evaluator; induction over the tree.
* **C58 Attribute source that changes its answers.** Second, stateful version of the evaluator in which the PIP sees the whole history and the regex cache is explicit; refinement to the pure evaluator when the PIP is history independent; containment by induction.
* **C59 Grouping, subject categories and resource contents do not matter.** Corollary of C56: evaluation depends only on what designators select from the concatenated attributes of each part.
* **C60 Request documents mean what they contain.** SpecContext.v says, without the reader, which request a document means (request_doc); the reader succeeds exactly on those, by folds over children.
* **C61 Response documents mean what they contain.** As C60 (response_doc).
* **C62 Threads do not disturb each other.** Third version of the evaluator as a program whose steps are the accesses to the shared cache and source (EvalThreads.v); schedules interleave the steps of a pool of threads; per thread program logic, invariant over schedules by induction, termination for every endless schedule in which the thread recurs; the single thread is the evaluator of C58.
* **C63 Algebra of combining.** About the evaluator of Eval.v; induction over the lists of rules and children, with the loops' flags generalised; for policy sets the combining algorithms are shown to be homomorphisms from lists to a monoid of outcomes, from which flattening and repetition follow.
* **C64 Pretty printing keeps the document.** PrettyPrint.v models the printer with the prefix map as state; SpecPretty.v is an independent reader for the XML subset with namespaces. Read back by induction over the tree with the scope of declarations agreeing with the declared namespaces; success by the pigeonhole principle on prefixes; witnesses for what is not kept (escaping, mixed content, tags without namespace, redeclared prefixes with lxml, prefixes left after a failure).
* **C65 From policy document to response document.** Service.v composes the modelled entry points; SpecService.v says what an answer is. The equivalence follows from C43, C45, C60 and the response writer; where a decision comes from by induction over the reasons of C08 with the invariant that every policy in the tree is the meaning of an element of one of the documents.
* **C66 Faults never grant access.** Relation between the stateful evaluator of C58 in an environment with faults and the pure evaluator without: each part gives the same outcome or an Exception; for rules the same decision or Indeterminate; through the combining loops by induction with invariants relating the flags of both runs, through policy trees by induction. Witnesses for what does not hold.
* **C67 How often the attribute source is asked.** Cost logic for the stateful evaluator of C58, induction over expressions and policy trees; families of policies and requests that attain the bound, by induction.
* **C68 Layout of documents does not matter.** SpecAlike.v defines documents that are alike. The meanings of C43, C45, C60 and C61 are shown to depend on nothing else, by induction over expressions and over the derivations of reading with references; the theorems about the readers follow from the equivalences of those properties, the one about decisions from C65.
* **C69 Interrupted evaluations grant nothing and leave nothing behind.** EvalCrash.v: the stateful evaluator of C58 as a relation in which every elementary step, and every handler, may also raise anything. Same relations as for C66, through the combining loops by induction; the cache invariant holds at every interruption point, which gives the claim about later evaluations; the evaluator of C58 is shown to be one of the cases.
* **C70 The log level does not decide.** EvalDebug.v: the stateful evaluator of C58 with the comparison of match.py:327-341. Equality of both evaluators by congruence through the tree; a debug evaluation is shown to be one of the interrupted evaluations of C69, which gives the claims for all trees; witness for string-concatenate.
* **C71 Objects built through the API have the documented shape.** Objects.v: a heap of objects with named attributes, constructors, setters and list methods as operations. Invariant over histories (types of attributes and items in the documented table of SpecObjects.v, monotone in the heap); existence of the policy an object stands for by induction on the well founded reference relation, uniqueness and locality by induction on derivations; witnesses for the limits.
* **C72 Objects are found and called by name as documented.** Factory.v: splitting of names and both functions over an arbitrary interpreter (import, getattr, issubclass, call as arguments; sys.path as a reference to a list object). Lemmas on the last separator; existence of the object as a path of attributes (SpecFactory.v); witness for the search path.
* **C73 The reader of a type is the one registered last or the one inferred from its name.** Factory.v: the class map with identity of types as an arbitrary equivalence; induction over registrations from the end; the inferred name through C72.
* **C74 Threads can share the function map.** FuncMapThreads.v: every operation of the map as a program whose steps are the accesses to its two dicts; a schedule picks the thread of each step. Rely/guarantee style invariant for one identifier (classes that may be found, factories, and what a thread knows to be present), preserved by every step; termination by induction on programs; witnesses for the two races.
* **C75 Evaluating objects is evaluating the policy they stand for.** EvalObjects.v: the evaluate methods once more, reading attributes of the objects of Objects.v, with a bound on nested calls. Refinement to Eval.v along the relation 'stands for' of SpecObjects.v, by induction on policies; dependence on reached objects by a set of addresses closed under references; the limit by a relation between the outcomes under two bounds, preserved by every combining algorithm; witnesses for Deny and circles.
* **C76 Copies of objects are faithful and independent, or refused.** Copy.v: __getstate__ and __setstate__ of each class and the part of copy and pickle that calls them, over a heap, with the memo and a recursion limit. Invariant: the memo relates old objects one to one to new ones, and those that are finished are copies (SpecCopy.v) along the memo of that moment; preserved through states and lists by induction on the limit. Existence with the number of objects not in the memo as measure. Independence by induction on reachability.
* **C77 Loading from a source puts in force what the source says, or nothing.** Sources.v: the readers once more with the state of the finder also after a failure, and an application of finders and PDPs with its operations. Agreement with the reader of C45 by induction on documents; a finder keeps what it holds through every outcome, by the same induction; the history by induction from the end. Directories of paths are specified separately (SpecSources.v). Witnesses for reloading, retrying and bare file names.
* **C78 A PDP can be given another policy while threads evaluate.** PdpThreads.v: threads whose steps are making a call, reading or assigning the slot of the PDP, the steps of an evaluation (EvalThreads.v), reading a source, and returning; the trace of calls and returns. Linearizability (SpecPdpThreads.v): an invariant ties every thread's activity to a phase (before or after its moment) and carries the moments put into the trace; the statements about steps follow from the same invariant. Termination by induction on the calls and the evaluation's steps.
* **C79 Reading, printing and writing keep the namespace prefixes of the process.** NsMap.v: the module attribute as a reference to one of several dicts, the backups of readers, and the operations on them. For nesting: the dict of a backup is not in use while inner readers live, by induction on nested histories (SpecNsMap.v). For any order: a predicate on dicts that every operation keeps holds of all dicts in reach. What printing enters, by induction on the tree.
* **C80 XPath selectors select by place below the context element.** XPathSelect.v: tokenizer, selector and steps of findall for paths without predicates, and both selectText. Places are lists of child numbers; a path leads along the tags of a place (SpecXPath.v). Lockstep with a version of the steps that carries places; membership by induction on the path; distinctness because places before the // have one length; tokens of written paths by induction. Witnesses for what differs from XPath.
* **C81 The whole process uses one element tree library.** TreeChoice.v: importElementTree over an arbitrary behaviour of imports, and a history of loading modules. Invariant: once decided, Config and all modules agree.
* **C82 Threads that load through one finder get what their documents say.** FinderThreads.v: the readers with a finder as programs whose steps are looking up a name, registering one and fetching; a schedule picks the thread of each step. A contract on programs (a Hoare logic with what the finder may hold as rely) that every step keeps and every reader meets, by induction on documents; for separate names a simulation of a thread by its own run; termination by induction on programs; witnesses for three races.
* **C83 Fetching by URL makes one request and goes past the proxies exactly for listed hosts.** Fetch.v: the three functions over an opener that answers as it likes at any time, with urlparse and hostname on strings, the list of requests and of open responses. URLs are specified by their parts (SpecFetch.v), the host by the text they are written as; entries of no_proxy by a split into texts without commas. Open responses by induction on the history. Witnesses for the leak and for capitals.
* **C84 Custom data types are read with the class and the reader registered for them.** DataTypes.v: the two maps with their filters and a history of registrations; a custom reader is a function from the element and the new value to a result. The maps after a history by induction (class_after, reader_after of SpecDataTypes.v). Locality: two environments that agree on the data types occurring in a document read it alike, by induction on the document and on the depth of references.
* **C85 Policies read from documents are object graphs that stand for the document.** ReadObjects.v: the readers as programs over the heap of Objects.v, the shared function map and the maps of the finder, statement by statement, where an exception leaves what was done before it. Refinement: each program, from a state in which the finder stands for an abstract finder, gives an object that stands for what Readers.v reads from the element, by induction on elements and on the depth of references; the new objects stand on their own because every for_ relation is monotone in the heap and holds in the heap in which the older objects are hidden. Typing, names and function map by an invariant over programs (grown in SpecReadObjects.v).
* **C86 Evaluating a policy while other threads change objects.** EvalLive.v: evaluation as a program that looks at one object at a time, with every second read of an attribute and every len() and iteration step a look of its own; lrun gives it one heap per step. EvalLiveFacts.v relates it to EvalObjects.v: a big-step relation ev with the set of objects looked at, for every method by the recursion of the method. Frame: ev is kept by every step whose heap agrees on that set, and bounds the number of steps. Added rules: a run over a growing list is, by induction on the run, a run with the list as it is at its last look. Refutations by computed schedules. Simplification: the operations of other threads are single steps.
* **C87 Combining algorithms and policies supplied by the user.** Custom.v: trees with algorithms of the user, an algorithm being a play that asks elements and learns outcomes; the comparisons of the answers in the order of the code. Spec: conversations (rtalk, ptalk) as relations over any outcomes. Containment and target by cases; conversations by induction on the play; sets by induction on the members; Permit by induction on the tree.
* **C88 Where combining algorithms come from.** Custom.v, second part: tables shared by reference, factories and holders of an algorithm as a state machine with the user's code as oracles. One step by cases, histories by induction. Refutation by a computed history.
* **C89 What has a bearing on decisions.** Model of C75 and C86. Spec: a list of attribute names, objects alike but for them, what leads from object to object without them. Every computation of EvalLive.v is shown blind to the names (a look at alike objects goes on alike), the frame argument of C86 is repeated for heaps that are alike, with the heap without these attributes as the reference. That the others matter is computed on a policy with all classes.
* **C90 Effects and decisions are words of their vocabulary, compare by value and cannot be mixed.** Vocab.v: a list of objects (class, value) under operations; a class is a family (rule.Effect, obligation.Effect, Decision), its place in the class tree, TYPES and the fixed word if any. Python's == with reflected methods, `in`, truth, hash and copying are modelled. Invariant by induction over histories; the value by induction on the last operation; comparison by cases.
* **C91 Namespace and element of every object.** Members.v: the four slots of XacmlCoreBase per object, which constructors run for which class, the two properties; __getstate__ is that of Copy.v. Slots after a history by induction, classes by cases.
* **C92 A PDP can be served from while policies are built, changed, read and swapped.** PdpLive.v: a process is the objects with the shared function map and finder (ReadObjects.v) and the calls made so far, each a computation that looks at one object per step (EvalLive.v); a history is a list of happenings (a call is made, call k makes a step, an operation, a reading, ...). Invariant by induction over the history: a call that has read its policy is at a point of the evaluation with the objects of one earlier moment, and the objects it can reach are still as they were then. Ending: from the number of steps the evaluation takes with those objects, over endless histories in which the call goes on again and again.
* **C93 How much larger than its documents a policy can be.** On Readers.v and EvalState.v. SpecAmplify.v counts the elements of documents and the occurrences in policy trees. AmplifyFacts.v: the meaning of a document (SpecRead.v) has at most one designator for each element, by counting children of different names; then mutual induction on the specification of reading, with a bound M on what is known: a reading of e elements leaves it below M * 2^e. AmplifyFacts2.v: the family of documents, each a set of the smaller one and a reference to it; reading it by induction with the completeness of the specification (C45), evaluation by induction on the height.
* **C94 Agreement with the evaluation rules of XACML 2.0.** On Eval.v. SpecStandard.v writes the standard's rules down with three-valued verdicts and tables over lists of outcomes. StandardFacts.v: the code evaluates every match of a target, so when it gets a verdict at all no error was there to be weighed and the standard's verdict is the same; for rules any decision but Indeterminate is the standard's and an Indeterminate rule can in the standard at most have its own effect; for policies by the combining specifications of C01-C06; for sets by induction on the tree.
* **C95 Typed and unique lists under every method that changes a list.** ListMethods.v adds the methods inherited from list to those of Utils.v, with Python's index and slice bounds; SpecListMethods.v says which calls hand items to the list unseen. By induction on the calls: a call that is not the class' own and does not add leaves a selection or a rearrangement of the list.
* **C96 Withholding attributes gains nothing where rules only grant and nothing is negated.** SpecMonotone.v says when a request holds more than another and which policies are free of negation. Values grow by a relation (equal, false to true, bags by inclusion), preserved by each function; induction over expressions, then over policies with the decisions of SpecStandard.v, which C94 ties to the evaluator.
* **C97 No attribute id, issuer or string is special: consistent renaming changes no decision.** SpecRename.v defines the renaming of requests and policies. Each step of evaluation commutes with it (ids and issuers are only compared; values only by the comparing functions), by induction over attributes, subjects, expressions and policies.
* **C98 A policy load stopped by an exception from outside.** Interrupts.v runs the reading program of FinderThreads.v for a number of steps and then raises. SpecInterrupts.v says which contents a finder may have while a document is read (gets_to), independently of the program. Every moment of the program is such a moment, by induction on documents; conversely every prefix is met, as a step adds at most one policy. Attempts by induction, with determinism of reading.
* **C99 Which exception a refused document raises.** SpecRefusals.v lists the possible mistakes of an element with their exceptions, the elements that are read, and the ways a set document is refused. Forward: every raise of every reader is traced to a mistake, by induction on the document (nesting limit for fetched ones). Backward: a document that means something (C43, C45) has no mistake at any part. Which of several mistakes is reported: the children are read by a fold, which stops at the first that raises.
* **C100 Access lists, matrices and roles decide as written.** SpecAccess.v says what access lists, matrices and role permissions mean without mentioning policies, and gives their policy and request documents element by element. The document is shown to be the canonical one of a policy (C44), the request document to mean the access (C60); each requirement, line and list is then evaluated with the decision tables of the rule combining algorithms (C01-C03, C11, C13).
* **C101 The function map under every method of a mapping.** MapMethods.v composes the methods inherited from MutableMapping from the overridden item methods of FuncMap.v; SpecMapMethods.v gives an ordered dictionary without a factory cache. Simulation, with the invariant that each key occurs once and that cached factories are those a new map would use; then induction over the calls and their outcomes for what was put under an identifier.
* **C102 What every built in function gives, and which exception it raises.** SpecFunctionTable.v is an inductive relation with one constructor for each way a call can go, with its own notions of class membership, bags, texts and rounding. Every outcome of the model is in the relation and the relation has one outcome for each call, by cases and induction on the arguments; rounding by integer arithmetic.
* **C103 Edits that make a policy stricter never grant.** SpecTighten.v defines the edits on the syntax of policies alone, as an inductive relation. For each algorithm it is shown what an outcome of Permit or NotApplicable says of the outcomes of the parts, and which outcomes of the parts lead to it; the edit relates the outcomes of the parts one by one; induction over the policy tree.
* **C104 Other ways of writing a policy decide alike.** SpecRewrite.v defines the rewritten targets, rules and expressions as operations on syntax. A group of rules each of which is silent or decides as one rule does may be replaced by that rule, by induction over the group for each algorithm; targets are reduced to which matches hold, and the match and the expression to the intersection of bags (C24).
* **C105 Function class factories make one class for each identifier and keep it.** FunFactory.v models the factory as an object with its look-up table, the number of classes made and the table of data types. SpecFunFactory.v says which type an identifier names without using the string functions of the model; that the code finds it is proved from the laws of split and join (C27). Histories by induction with the invariant that a held class has its own identifier and an old number.
* **C106 Exchanging grants and refusals, and choosing an algorithm.** SpecMirror.v defines the exchanged policy as an operation on syntax. The loops of deny-overrides and permit-overrides over rules are carried into each other by induction, with the rule's outcome exchanged; comparisons of algorithms by induction over the loops for any values of their flags.
* **C107 Default rules and rules that cannot matter.** SpecDefault.v says when a rule is a catch-all and when one covers another, from their text alone. The loops of the algorithms are characterised by induction for lists of rules without errors, and separately, with errors, for lists that contain a rule giving the default; covering is related to evaluation through the target and condition lemmas of C103.
* **C108 Policies can be split by the values of an attribute.** SpecSplit.v says from the text of targets when they are about other values, and what may be left out at any depth. A target about other values does not match (from the match, section and target lemmas of C103 and C13); rules and policies that are NotApplicable are skipped by every algorithm (C63); induction over nested sets.
* **C109 Referring to a policy document and including it are the same.** SpecBundle.v defines inclusion as a relation between documents. By C45_read_iff reading is the relation reads, whose derivations are followed by mutual induction: from the including document to the referring one (the finder knows the same policies at corresponding places), and, for the bundle, from the referring one to an including one built along the way.
* **C110 A finder after documents that could not be read.** The object level reader doc_l of ReadObjects.v is simulated by read_doc_s of Sources.v, which gives the state of the finder also on failure (FailedFacts.v; on success this is C85). That state is one of the moments of C98 (gets_to). Induction over derivations gives where what is held comes from, and that policies under other names can be added to all states of a derivation; induction over the sequence of readings gives the rest. What exactly is left is a relation of its own (left_by, SpecLeft.v): induction over limit and document shows that a failing read_doc_s leaves what it says (LeftFacts2.v), and induction over its derivations that it leaves no choice and excludes reading (LeftFacts.v).
* **C111 Several policies in place of one.** SpecPieces.v says what it is to deal out rules. First-applicable by induction on the parts; the others from the decision tables of C01, C02, C04 and C05, used for the one policy, for each of the parts and for the set.
* **C112 The overriding algorithms by order.** What rules of one effect come to under first-applicable, by induction; then the decision tables of C01 and C02.

## Trusted base

* The Coq 8.16.1 kernel.  Nothing in `rocq/theories` is an axiom, and no kernel
  check is switched off.
* `Print Assumptions` is run for every theorem named in `MANIFEST.json`, at the end
  of the `Properties*.v` file that holds it.  It prints "Closed under the global
  context" for all of them: no theorem depends on any axiom.
* `coqchk -o` lists seven library axioms of `Coq.ssr.ssrunder.Under_rel`
  (`Over_rel`, `Under_rel`, `Under_relE`, `Under_rel_from_rel`, `over_rel`,
  `over_rel_done`, `under_rel_done`).  They belong to a module of the standard
  library that is loaded with the `Lia` and `Ring` machinery.  No theorem uses them.
* Only the standard library of Coq is imported.
* The reading of the Python sources.  The code is not run here, so the
  correspondence between model and code rests on the comments that cite file and
  lines, on the `Example`s, and on the seeded faults of `seeded/LOG.jsonl`.
* The specification files `Spec*.v`, which say what the English statements mean.

## What is modelled

| source | model |
|---|---|
| `core/rule_combining_alg.py`, `core/policy_combining_alg.py`, `core/policybase.py`, `core/policy.py`, `core/policyset.py`, `core/rule.py`, `core/target.py`, `core/match.py`, `core/apply.py`, `core/condition.py`, `core/expression.py`, `core/attributedesignator.py`, `core/attributeselector.py` (evaluation) | `Eval.v`; with cache and history `EvalState.v`; as threads `EvalThreads.v` (function map: `FuncMapThreads.v`); on shared and circular objects `EvalObjects.v`; with decision objects `Response.v` |
| `core/functions/v1/*.py`, `core/functions/v2/*.py` | `Functions.v` |
| `core/functions/__init__.py` (function map, class factories) | `FuncMap.v` |
| `core/attributevalue.py`, value classes and class map | `Values.v`, `Utils.v` |
| property setters of the policy, rule, match, apply, attribute value, effect, decision and status code objects | `Setters.v` |
| `core/context/result.py`, `response.py`, `exceptions.py`, `pdp.py` | `Response.v` |
| `core/context/request.py`, `subject.py`, `resource.py`, `action.py`, `environment.py` | records of `Syntax.v` |
| `parsers/etree/*reader.py`, `parsers/etree/factory.py` (as a function), `finder/*.py`, `parsers/common.py` | `Readers.v`, `Registry.v` |
| `parsers/etree/context.py` | `ContextXml.v` |
| `parsers/etree/__init__.py` (QName) | `Text.v`, `ContextXml.v` |
| `utils/__init__.py` (TypedList, UniqList, RestrictedKeyNamesDict, VettedDict, str2Bool) | `Utils.v`, `Text.v` |
| `utils/urlfetcher.py` (`_should_use_proxy`), `finder/urlpolicyfinder.py` (URL of a reference) | `Text.v` |
| `utils/etree.py` (pretty printing) | `PrettyPrint.v` |
| `core/context/pdp.py` (`fromPolicySource`, use with documents) | `Service.v` |
| evaluation with an exception at any point | `EvalCrash.v` |
| `core/match.py` with debug logging | `EvalDebug.v` |
| constructors, attributes and lists of the policy, target, rule, expression, attribute and request objects, as a graph of objects (results, statuses and responses: `Response.v`) | `Objects.v` |
| `utils/factory.py`, `parsers/etree/factory.py` (class map) | `Factory.v` |
| `__getstate__` and `__setstate__` of all classes, `parsers/etree/__init__.py` (serialised element trees) | `Copy.v` |
| `finder/defaultfinder.py`, `fromSource` of all classes, `parsers/etree/reader.py` (`_parse`), finders after failures | `Sources.v` |
| `core/context/pdp.py` used by several threads | `PdpThreads.v` |
| `parsers/etree/reader.py` (life of readers), `parsers/etree/__init__.py` and `utils/etree.py` on `_namespace_map` | `NsMap.v` |
| `finder/policyfinderbase.py`, `finder/urlpolicyfinder.py` and the readers of policies and policy sets, stepwise for threads | `FinderThreads.v` |
| `utils/xpath_selector.py`, with the paths of xml.etree that have no predicates | `XPathSelect.v` |
| `ndg/xacml/__init__.py` | `TreeChoice.v` |
| functions/__init__.py: FunctionClassFactoryBase with its look-up table; the seven factories derived from it | `FunFactory.v` |
| `core/functions/__init__.py` FunctionMap with the methods inherited from MutableMapping (simplification: keys are strings, a value that is no function class is one case) | `MapMethods.v` |
| stopped loads: `core/pdp.py`, `core/policybase.py`, `parsers/etree/policysetreader.py` | `Interrupts.v` |
| `utils/__init__.py`: TypedList and UniqList with the methods inherited from list | `ListMethods.v` |
| core/context/pdp.py:74-103, core/policybase.py:99-122 on objects, with the steps of any number of calls interleaved with operations and readings (simplification: an operation and a reading are one step each; responses are not among the shared objects; shared decisions have their first values) | `PdpLive.v` |
| core/__init__.py:15-165, core/context/__init__.py:18-38, the constructors of core/, the three placeholder classes (simplification: other attributes of the objects are in Objects.v) | `Members.v` |
| core/rule.py:22-180, core/obligation.py:21-139, core/context/result.py:242-480 as objects (simplification: classes derived by the user override TYPES and __init__ only) | `Vocab.v` |
| tables and factories of combining algorithms | `Custom.v` |
| algorithms, policies and factories of the user | `Custom.v` |
| evaluation of objects one look at a time, under interleaving | `EvalLive.v` |
| `parsers/etree/*reader.py` and `finder/` as programs on objects | `ReadObjects.v` |
| `parsers/etree/attributevaluereader.py` (registration of readers) | `DataTypes.v` |
| `utils/urlfetcher.py`, with `urlparse(url).hostname` of the library | `Fetch.v` |

External collaborators are function arguments (oracles): attribute sources behind the
context handler, regular expressions, XPath, user functions, fetching of documents.

## What is not modelled

* The step between bytes and element trees (`xml.etree`, `lxml`), XPath with predicates
  or with lxml and the regular expression engine: external.  The paths of C80 follow
  CPython's `ElementPath.py`, which is part of the trusted base of that property.
* Network access in `utils/urlfetcher.py` beyond the proxy decision.
* Canonical form in `utils/etree.py`, logging other than the debug branch of `core/match.py` (C70), `__repr__`, exception messages other than those of C55.
* Variable definitions and references, obligations and combiner parameters: the
  classes exist but evaluation ignores them and their readers are missing.
* The dictionary base classes behind the containers: the inherited methods that the
  repository does not override are modelled only where a property mentions them.  Those
  of list that change it are in C95.
* Text encoding: strings are sequences of 8 bit characters and case mapping is ASCII.
* Object identity, except for the four shared decision objects (C41), the registries
  and the objects of C71.  Subclasses made by the user are not among the objects of C71.
  The attributes `xmlns`, `elem`, `reader` and `writer` of every object are those of C91.
* Of the modules copy and pickle (C76) only what they do with objects that declare
  `__slots__`, as documented for Python 3; the bytes of a pickle are not modelled.
* Threads: evaluation by several threads is modelled with the accesses to the
  regular expression cache and to the attribute source as atomic steps (C62), use of
  the function map with the accesses to its dicts (C74), use of PDPs with the accesses to
  the slot of the policy (C78), loads with the accesses to the finder (C82), evaluation
  with a look at one object per step while others change them (C86), also together with
  operations, readings and PDPs (C92).  The other registries and the
  containers are modelled under sequential use.
* Where the interpreter's recursion limit strikes while one document is read.  That it
  strikes is one of the exceptions of C98; between documents it is a distinct outcome
  (C47); during evaluation RecursionError is modelled (C75) and one of the interruptions
  of C69.  Interruptions in the middle of an elementary step (a call of a collaborator,
  one update of the cache or of a finder) are those before and after it.

## Findings

Behaviour of the code that differs from what its documentation, or XACML 2.0, lead a
user to expect.  Where a property would be false because of it, the property says so,
or a theorem with the suffix `_refuted` gives the witness.

Evaluation

* A condition that evaluates to an attribute value object for false counts as true:
  the object, not its value, is tested.
* An Indeterminate rule without effect makes rule combining depend on the order.
* The category of a subject is never looked at (C59).
* A user function may make decisions depend on the order of request contents
  (`C57_custom_refuted`).
* With a match function that returns an attribute value, switching on debug logging
  turns Permit into Indeterminate (`C70_any_function_refuted`).
* `evaluateResponse`: the `except` branch rebinds a local name only.
* The four decision objects are shared and mutable (C41).
* `Result.createInitialised` ignores its resource id.

Functions

* `uri-string-concatenate` is in the catalogue but not implemented.
* `rfc822Name-match` has the generic behaviour, not that of XACML.
* Identifiers with junk segments are accepted by the function map.
* Item assignment on the function map bypasses the overwrite protection.
* A custom function under an identifier in a standard namespace is lost if another
  thread is looking the identifier up while it is installed (`C74_lost_refuted`); a
  lookup during a deletion may raise KeyError (`C74_deletion_refuted`).
* The exception for unsupported standard algorithms is never raised for combining
  algorithms.
* After a failed assignment of an id, algorithm or function stay as they were while
  the id is the new one.

Readers and finders

* PolicySetDefaults elements are always rejected; `PolicySet.fromSource` always
  raises TypeError (`reader.parse` is called without its second argument).
* EnvironmentMatch, EnvironmentAttributeDesignator and VariableDefinition have no
  reader module: ImportError.
* Condition inside Apply gives TypeError; an unknown child of a match AttributeError.
* Of repeated Target, Condition, Description, AttributeValue or designator elements
  the last one wins silently.
* Readers accept any namespace; a namespace with a line break is lost.
* A comment inside PolicyDefaults breaks the reader.
* A reference element without text gives AttributeError with the URL finder and
  XMLParseError with the local one.
* `file://.//x` escapes the base path of the URL finder.
* `getDefaultPolicyFinder` raises NameError (`file`) for sources that are no strings.

Requests and responses as XML

* The subject category is not written, so it is lost in a round trip.
* `Result.toXML` with a resource id raises AttributeError (`attrib.append[...]`);
  a request without action or environment cannot be written.
* With lxml every element gets an attribute `xacml-context`, because the namespace
  map is passed as the attribute dictionary.
* With lxml, writing moves the resource content out of the original tree.
* `elem.getchildren()` does not exist in `xml.etree` of Python 3.9 and later.
* An attribute without values is written but rejected when read.
* Comments count as children of PolicyDefaults and Attribute elements (`C68_comment_refuted`);
  namespaces are not looked at, so elements of any other namespace are accepted (C68).
* Unknown children of Subject, Resource, Action and Environment are ignored.
* Values of other types than string are not read.

Objects

* `insert`, item assignment and the constructor of a list do not test the items
  (`C71_insert_refuted`); `Attribute.attributeValues` accepts a list of any element
  type (`C71_attribute_values_refuted`).
* A policy set may contain itself (`C71_circular_refuted`).  With deny-overrides it then
  denies every request (`C75_circular_deny_refuted`).
* A policy nested deeper than the recursion limit allows counts as Deny for a
  surrounding policy set with deny-overrides (`C75_limit_deny_refuted`).
* `Rule.description` raises AttributeError until it is set; so does `xmlns` of Target
  and Obligation objects, whose constructors do not call the one of their base class.
* A refused combining algorithm id is kept although TypeError is raised
  (`C71_refused_id_refuted`).
* No AttributeAssignment can be created (its TYPE is None), so the list of an
  obligation stays empty unless the user makes a subclass; `fulfillOn` may be any string.
* An attribute that was set cannot be set back to None.

Copies

* Attribute objects and all policy objects other than matches define `__slots__` and
  `__getstate__` but no `__setstate__`, so that copying them raises AttributeError
  (`C76_policy_refused`, `C76_shallow_refused`), and so does copying a request with an
  attribute (`C76_request_refused`).
* Copies of attribute values and matches have none of their attributes
  (`C76_forgotten`).  The category of a subject (`C76_category_lost`) and the code,
  message and detail of a status (`C76_response`) are lost.
* A list with items cannot be unpickled with protocol 2 or later
  (`C76_pickled_list_refused`): `extend` is called before the element type is set.
* The standard attribute value classes cannot be pickled by name (`C76_value_refused`).

Loading policies

* A finder keeps every policy it has read.  A policy that has changed cannot be loaded
  again with the same finder (`C77_reload_refuted`), and a load that failed, such as for
  a web server that was down, cannot be tried again with it (`C77_retry_refuted`): both
  raise for the duplicate id.
* A file in the working directory given by its bare name has the base path '', and a
  relative reference becomes the host of a file URL (`C77_bare_name_refuted`).
* Without a finder, `PDP.fromPolicySource` raises NameError for a stream or an element:
  `file` is not a name in Python 3 (`C77_only_paths`).
* `PolicySet.fromSource` always raises TypeError: it does not pass the finder
  (`C77_set_from_source_refused`).

Utilities

* `RestrictedKeyNamesDict.update` raises TypeError for ordinary calls.
* `UniqList.extend` does not remove duplicates within its argument (C37).
* `isValidXmlns` is False for policy objects.
* Importing with an extra path leaves the module search path changed
  (`C72_search_path_refuted`); an inferred reader class is not tested
  (`C73_inferred_type_refuted`).
* `prettyPrint` does not escape: a quote in an attribute value or a `<` in a text
  changes the document (`C64_quotes_refuted`, `C64_markup_refuted`).  Text between
  children is dropped (`C64_mixed_refuted`).  A tag without namespace is printed with
  an empty prefix declaration, which is not XML (`C64_no_namespace_refuted`).  With
  lxml a prefix that is declared anew inside can make an inner element change its
  namespace (`C64_redeclared_refuted`).  A call that fails leaves the prefixes it
  allocated in `ElementTree._namespace_map` (`C64_map_refuted`).
* Namespace prefixes (C79): readers that overlap without being nested, as readers in two threads do, leave `'' -> XACML policy URI` in `ElementTree._namespace_map` for good; a prefix registered while a reader exists is lost when the reader is deleted; a pretty print that raises leaves the prefixes it made up.
* XPath (C80): a path that begins with `/` is taken from the context element, so `/Request` does not select the request; with `//a//b` an element can be selected twice, so that `one-and-only` fails; an element without text makes a string selector raise TypeError.
* Config (C81): changing `Config.use_lxml` after a module is loaded mixes libraries.
* One finder in several threads (C82): the test for a name and its registration are two steps, so two threads can both load policies of one name; a reference can then resolve to the other thread's policy although the document itself has one of that name; two threads that refer to the same remote document can make one fail with an error about a duplicate.
* Fetching (C83): if reading a response fails it is never closed (`C83_leak_refuted`); entries of `no_proxy` with capitals or a port never fit (`C83_capitals_refuted`).
* Data types (C84): with the readers that are registered by default, every AttributeValue of a standard type that is not a string type (integer, boolean, double, date, ...) makes the policy unreadable with TypeError (`C84_standard`).
* Reading into objects (C85): a policy set and every set that refers to one of its members share the member object; a read that fails leaves its policies registered with the finder (`C85_failed`), so that reading the corrected document with the same finder is refused.
* Concurrent changes (C86): deleting a rule while its policy is evaluated can hide the rule after it (`C86_delete_refuted`: Permit although deny-overrides denies before and after); insert then append shows a state that never was (`C86_insert_refuted`); appending a match while it is compared raises IndexError, since the result list is sized before the loop (`C86_match_refuted`).
* A combining algorithm of the user may return anything (C87): a policy set with deny-overrides ignores a member whose answer equals no decision, and PDP.evaluate raises TypeError when the policy's algorithm returns None or a string.
* A class registered in DEFAULT_MAP under an id in use is not used by policies that have the id already (`C88_current_refuted`).
* Obligations are kept but never used: no evaluation looks at them and no result carries them (C89, C42), and documents with them are refused (C43).
* A decision used as a condition is always true, Deny included, while the effect of a rule is true only if it is Permit: `if decision:` grants whatever was decided (C90). Comparing an effect or a decision with None or an object of another class raises UnboundLocalError where TypeError is documented.
* isValidXmlns is false for every object the library makes or reads: the namespaces it looks for are prefixes of the real ones, the context classes never set theirs (C91). MatchBase, Target and Obligation do not call the constructor of XacmlCoreBase, so reading their xmlns or elem raises AttributeError and they cannot be copied or pickled (C91).
* Changing the policy of a PDP in place while it is evaluated can permit what the policy denies at every moment (C92_in_place_refuted): deleting a rule shifts the others past the loop of the combining algorithm. Building a new policy and assigning it is safe.
* References multiply work: a document of 7 + 2n elements can make one evaluation ask the attribute source 2^n times (`C93_exponential`). Policies from sources that are not trusted should be limited in their references.
* Target evaluation is strict where the standard is not: an error in one alternative or one part of a target makes a rule or policy Indeterminate even if another alternative matches or another part excludes the request, so a deny-overrides policy set denies where the standard grants (`C94_indeterminate_refuted`, `C94_deny_refuted`). What the code grants the standard grants (`C94_grants`), except through conditions giving attribute value objects instead of booleans (`C94_grants_refuted`).
* TypedList checks items in append, extend and += only: insert, item and slice assignment and a repeated __init__ let any object in, also in the rule, target and attribute lists of policies and requests (`C95_slipped`).
* Leaving attributes out of a request can turn Deny or NotApplicable into Permit as soon as a policy denies or negates, and, by avoiding a one-and-only error, even where it does neither (`C96_deny_rule_refuted`, `C96_not_refuted`, `C96_error_refuted`).
* A load that fails may succeed when it is simply repeated with the same finder, if the
  document at a reference's URL is a set that holds the wanted policy and is wrong
  after it (`C98_repeat_refuted`); after a stopped load, a repeated one may give another
  policy if a document at a URL is not the one named (`C98_misplaced_refuted`).
* On the function map the inherited `setdefault` never stores its default, `pop` ignores its default, `in` is false for standard functions until they are looked up, and `update` replaces standard functions (`C101_contains_refuted`, `C101_update_standard_refuted`).
* The functions and, not and round refuse attribute values, so a condition cannot apply them to a boolean or numeric attribute, whether given or looked up (`C102_attribute_values_refused`).
* Removing or narrowing a Permit rule can grant access if the rule met an error: under first-applicable its Indeterminate hid a later Permit (`C103_error_refuted`, `C103_narrowed_error_refuted`).
* Dividing the alternatives of a rule's target over two rules can turn Indeterminate into Permit, as an error in one alternative is an error of the whole target (`C104_alternatives_error_refuted`).
* A function class factory also makes classes for identifiers outside its family: without the suffix, or with anything after it (`C105_own_family_refuted`). FUNCTION_NAMES given as one string (a tuple without its comma) passes the constructor, and then nothing can be loaded from it (`C105_one_string`). A class made before its data type was registered anew keeps the old data type (`C105_old_type`).
* Deny-overrides and permit-overrides over policies are not mirror images: an error makes the one Deny and the other Indeterminate (`C106_set_refuted`). With an error in an earlier rule first-applicable may be Indeterminate where deny-overrides permits (`C106_between_refuted`).
* Two references to one remote policy are accepted, but the document with both replaced by the policy is refused, as one id is then used twice (`C109_twice_refuted`).
* A failed reading leaves the policies registered so far in the finder; a document without references cannot then be read again with that finder, even when the cause of the failure is gone (`C110_stuck`).
* Cutting a policy into several policies is not neutral where a rule meets an error: under deny-overrides the set denies what the policy permits (`C111_permit_refuted`), because policies left Indeterminate count as Deny.
