{"id": "C01", "title": "Deny-overrides combines rules exactly as specified", "statement": "Evaluating a policy's rules under the rule deny-overrides algorithm gives: Deny if some rule decides Deny (before any fault in the combiner); otherwise Indeterminate if some rule whose effect is Deny decides Indeterminate; otherwise Permit if some rule decides Permit; otherwise Indeterminate if some rule decides Indeterminate; otherwise NotApplicable.", "quantifier": "every finite list of rules, every decision each rule may reach, every request", "why_tests_cant": "The number of rules and the orders in which the four decisions can appear are unbounded; tests sample a handful of two or three rule policies.", "anchors": ["ndg/xacml/core/rule_combining_alg.py: DenyOverridesRuleCombiningAlg.evaluate"]}
{"id": "C02", "title": "Permit-overrides combines rules exactly as specified", "statement": "Evaluating a policy's rules under the rule permit-overrides algorithm gives: Permit if some rule decides Permit; otherwise Indeterminate if some rule whose effect is Permit decides Indeterminate; otherwise Deny if some rule decides Deny; otherwise Indeterminate if some rule decides Indeterminate; otherwise NotApplicable.", "quantifier": "every finite list of rules, every decision each rule may reach, every request", "why_tests_cant": "Unbounded list length and decision orders.", "anchors": ["ndg/xacml/core/rule_combining_alg.py: PermitOverridesRuleCombiningAlg.evaluate"]}
{"id": "C03", "title": "First-applicable returns the first decision that is not NotApplicable (rules)", "statement": "Under the rule first-applicable algorithm the result is the decision of the earliest rule in the list that does not decide NotApplicable, and NotApplicable if there is none; rules after that one have no influence.", "quantifier": "every finite list of rules and every request", "why_tests_cant": "The deciding rule may sit at any position of a list of any length.", "anchors": ["ndg/xacml/core/rule_combining_alg.py: FirstApplicableRuleCombiningAlg.evaluate"]}
{"id": "C04", "title": "Deny-overrides over policies treats Indeterminate as Deny", "statement": "Under the policy deny-overrides algorithm the result is Deny if any child policy or policy set decides Deny or Indeterminate, otherwise Permit if any child decides Permit, otherwise NotApplicable; the result is never Indeterminate.", "quantifier": "every finite list of child policies and policy sets, every request", "why_tests_cant": "Unbounded list length, and children that are themselves arbitrary trees.", "anchors": ["ndg/xacml/core/policy_combining_alg.py: DenyOverridesPolicyCombiningAlg.evaluate"]}
{"id": "C05", "title": "Permit-overrides over policies", "statement": "Under the policy permit-overrides algorithm the result is Permit if any child decides Permit, otherwise Deny if any child decides Deny, otherwise Indeterminate if any child decides Indeterminate, otherwise NotApplicable.", "quantifier": "every finite list of child policies and policy sets, every request", "why_tests_cant": "Unbounded list length and nesting.", "anchors": ["ndg/xacml/core/policy_combining_alg.py: PermitOverridesPolicyCombiningAlg.evaluate"]}
{"id": "C06", "title": "First-applicable over policies", "statement": "Under the policy first-applicable algorithm the result is the decision of the earliest child that does not decide NotApplicable, and NotApplicable if there is none.", "quantifier": "every finite list of child policies and policy sets, every request", "why_tests_cant": "Unbounded list length and nesting.", "anchors": ["ndg/xacml/core/policy_combining_alg.py: FirstApplicablePolicyCombiningAlg.evaluate"]}
{"id": "C07", "title": "Override algorithms do not depend on the order of rules or policies", "statement": "For deny-overrides and permit-overrides, over rules and over policies, reordering the rules (or child policies) leaves the decision of the enclosing policy (or policy set) unchanged; first-applicable does not have this property.", "quantifier": "every list and every permutation of it, every request", "why_tests_cant": "There are n! orders for every n; a test fixes one.", "anchors": ["ndg/xacml/core/rule_combining_alg.py", "ndg/xacml/core/policy_combining_alg.py"]}
{"id": "C08", "title": "No algorithm invents a Permit or a Deny", "statement": "A policy decides Permit (Deny) only if one of its rules decides Permit (Deny); a policy set decides Permit only if some child decides Permit, and decides Deny only if some child decides Deny, or, under deny-overrides, Indeterminate. Consequently a decision of Permit anywhere in a policy set tree is traceable to a rule with effect Permit whose target and condition were satisfied.", "quantifier": "every policy set tree of any depth and width, every request", "why_tests_cant": "Quantifies over trees of every depth.", "anchors": ["ndg/xacml/core/rule_combining_alg.py", "ndg/xacml/core/policy_combining_alg.py", "ndg/xacml/core/policybase.py: PolicyBase.evaluate"]}
{"id": "C09", "title": "Rule evaluation decision table", "statement": "Rule.evaluate returns NotApplicable when the target does not match or the condition is false, returns exactly the rule's effect when the target matches (or is absent) and the condition is true (or absent), returns Indeterminate when target or condition evaluation raises any Exception, and never returns the effect in any other case.", "quantifier": "every rule, every request, every attribute source and every exception", "why_tests_cant": "The set of exceptions and of inputs that reach them is open ended.", "anchors": ["ndg/xacml/core/rule.py: Rule.evaluate"]}
{"id": "C10", "title": "Evaluation faults are contained as Indeterminate", "statement": "Policy.evaluate and PolicySet.evaluate return one of the four decisions for every policy tree and request: no Exception raised by a target, condition, function, attribute source, missing function or missing combining algorithm escapes; only exceptions outside the Exception hierarchy (interpreter exit, keyboard interrupt) can propagate, and then only if the attribute source or a custom function raised one.", "quantifier": "every policy tree of any depth, every request, every behaviour of the attribute source and custom functions", "why_tests_cant": "Fault points are everywhere in an unbounded tree; tests inject a few.", "anchors": ["ndg/xacml/core/policybase.py: PolicyBase.evaluate", "ndg/xacml/core/rule.py: Rule.evaluate"]}
{"id": "C11", "title": "Target matching is AND of sections, OR of alternatives, AND of matches", "statement": "When no match raises, Target.match is True exactly when each of subjects, resources, actions and environments is either empty or contains a child all of whose matches are True; a child with no matches is satisfied.", "quantifier": "every target, with any number of children per section and matches per child", "why_tests_cant": "Unbounded nesting widths.", "anchors": ["ndg/xacml/core/target.py: Target.match, Target._matchChild"]}
{"id": "C12", "title": "Target matching never hides an error", "statement": "If any match in any child of any section of a target raises, Target.match raises the first such error in document order, regardless of what the other matches return: there is no short circuit that lets an erroneous target silently match or not match.", "quantifier": "every target and every position of the failing match", "why_tests_cant": "The failing match can be anywhere in a structure of any size.", "anchors": ["ndg/xacml/core/target.py: Target.match", "ndg/xacml/core/match.py: MatchBase.evaluate"]}
{"id": "C13", "title": "A match is true exactly when some retrieved value satisfies its function", "statement": "MatchBase.evaluate retrieves the values of its designator (else selector), applies the match function with the policy's value first and the request's value second to every retrieved value, and returns True exactly when some application is true; it is False for an empty bag; any failing application raises.", "quantifier": "every match element, every bag of values of any size", "why_tests_cant": "Bags have unbounded size.", "anchors": ["ndg/xacml/core/match.py: MatchBase.evaluate"]}
{"id": "C14", "title": "Subject designator returns exactly the matching values", "statement": "With no context handler, SubjectAttributeDesignator.evaluate returns, in request order, exactly the values v of attributes of any subject in the request whose attributeId and dataType equal the designator's, whose issuer equals the designator's when the designator names one, and whose own dataType equals the designator's.", "quantifier": "every request with any number of subjects, attributes and values; every designator", "why_tests_cant": "Unbounded numbers of subjects, attributes and values.", "anchors": ["ndg/xacml/core/attributedesignator.py: SubjectAttributeDesignator.evaluate"]}
{"id": "C15", "title": "Resource, action and environment designators return exactly the matching values", "statement": "The other three designators return, in request order, exactly the values of the matching attributes of the resources, of the action and of the environment of the request respectively, and never consult the attribute source or another section.", "quantifier": "every request and designator", "why_tests_cant": "Unbounded numbers of attributes and values.", "anchors": ["ndg/xacml/core/attributedesignator.py: ResourceAttributeDesignator.evaluate, ActionAttributeDesignator.evaluate, EnvironmentAttributeDesignator.evaluate"]}
{"id": "C16", "title": "MustBePresent fails exactly on an empty result", "statement": "A designator (or selector) whose mustBePresent is true raises MissingAttributeError exactly when its evaluation finds no value; one whose mustBePresent is false never raises MissingAttributeError and returns an empty bag instead.", "quantifier": "every request, designator, selector and attribute source", "why_tests_cant": "Must hold for every absent-attribute situation.", "anchors": ["ndg/xacml/core/attributedesignator.py", "ndg/xacml/core/attributeselector.py: AttributeSelector.evaluate"]}
{"id": "C17", "title": "Values from the attribute source only add to the request's values", "statement": "When a context handler is set, the bag of a subject designator contains every value a request without handler would yield, in the same relative order; every additional value was returned by the handler's pipQuery for this designator; the handler is consulted exactly once per subject in the request.", "quantifier": "every request, every handler behaviour", "why_tests_cant": "The handler is arbitrary external code.", "anchors": ["ndg/xacml/core/attributedesignator.py: SubjectAttributeDesignator.evaluate", "ndg/xacml/core/context/handlerinterface.py: CtxHandlerInterface.pipQuery"]}
{"id": "C18", "title": "Bags are type homogeneous", "statement": "Every value in a bag returned by any designator or selector is an instance of the AttributeValue class registered for the designator's dataType; a value of another class makes evaluation raise TypeError instead of entering the bag.", "quantifier": "every request, designator, selector and attribute source", "why_tests_cant": "Arbitrary external values.", "anchors": ["ndg/xacml/core/attributedesignator.py", "ndg/xacml/utils/__init__.py: TypedList"]}
{"id": "C19", "title": "Attribute selector turns each selected text into a typed value", "statement": "AttributeSelector.evaluate returns one value per text node the request's XPath selector returns, in the same order, each of the class registered for the selector's dataType and holding that text; it raises if no selector is set, if the data type is unknown, or if the class does not hold strings and at least one text was selected.", "quantifier": "every path, request and XPath engine behaviour", "why_tests_cant": "Arbitrary number of selected nodes and arbitrary data type.", "anchors": ["ndg/xacml/core/attributeselector.py: AttributeSelector.evaluate"]}
{"id": "C20", "title": "Function application is strict and left to right", "statement": "Apply.evaluate evaluates all its argument expressions left to right, exactly once each, then applies the function to their values in order; if an argument raises, the function is not applied and the first error is raised. Nested applications compose.", "quantifier": "every expression tree of any depth and width", "why_tests_cant": "Expression trees are unbounded.", "anchors": ["ndg/xacml/core/apply.py: Apply.evaluate", "ndg/xacml/core/condition.py: Condition.evaluate"]}
{"id": "C21", "title": "and / not functions", "statement": "and returns the conjunction of its arguments (True for none) whatever their number, and raises a context type error if any argument is not a plain boolean even when an earlier one is False; not negates one plain boolean and raises otherwise.", "quantifier": "every argument list", "why_tests_cant": "Any number of arguments.", "anchors": ["ndg/xacml/core/functions/v1/and.py", "ndg/xacml/core/functions/v1/not.py"]}
{"id": "C22", "title": "equal and match functions decide value equality of one type", "statement": "A <type>-equal (or <type>-match) function returns True exactly when both arguments are values of that type with equal underlying value, False when they are of that type and differ, and raises when either argument is not of that type; on values of the type it is symmetric, and reflexive and transitive except for the not-a-number double.", "quantifier": "every type and every pair or triple of values", "why_tests_cant": "Infinite value domain.", "anchors": ["ndg/xacml/core/functions/v1/equal.py: EqualBase.evaluate", "ndg/xacml/core/functions/v1/match.py: MatchBase.evaluate"]}
{"id": "C23", "title": "one-and-only inverts bag of one", "statement": "<type>-one-and-only returns the single element of a bag of the right type of length one and raises for every other argument; <type>-bag of n values of the type returns a bag with exactly those n values in order and raises if any value is of another type.", "quantifier": "every bag and argument list", "why_tests_cant": "Any bag length.", "anchors": ["ndg/xacml/core/functions/v1/one_and_only.py", "ndg/xacml/core/functions/v1/bag.py"]}
{"id": "C24", "title": "at-least-one-member-of decides intersection", "statement": "<type>-at-least-one-member-of returns True exactly when some value occurs in both bags; it is symmetric, insensitive to order and repetition, False if either bag is empty, and raises unless both arguments are bags of exactly that type.", "quantifier": "every pair of bags of any size", "why_tests_cant": "Any bag sizes.", "anchors": ["ndg/xacml/core/functions/v1/at_least_one_member_of.py"]}
{"id": "C25", "title": "Concatenation", "statement": "<type>-concatenate of a value of the type and n >= 1 strings returns a value of the type whose text is the concatenation in argument order, so concatenating in one call or stepwise gives the same value; fewer than two arguments or a wrong type raises.", "quantifier": "every argument list of any length", "why_tests_cant": "Any number of arguments.", "anchors": ["ndg/xacml/core/functions/v2/concatenate.py"]}
{"id": "C26", "title": "Regular expression cache is transparent", "statement": "The result of a regexp-match evaluation depends only on its own two arguments: whatever sequence of regexp-match evaluations happened before, in whatever order and with whatever failures, the outcome equals that of compiling the pattern afresh and matching at the start of the string.", "quantifier": "every history of calls", "why_tests_cant": "History dependence of a process-wide cache.", "anchors": ["ndg/xacml/core/functions/v1/regexp_match.py: RegexpMatchBase.evaluate"]}
{"id": "C27", "title": "Function identifiers resolve deterministically and soundly", "statement": "Resolving a function identifier depends only on the identifier (given the default configuration): it yields a function of the family and data type the identifier's name spells, or the not-implemented marker, or an error; identifiers outside the two standard prefixes raise a configuration error. For the whole standard catalogue the exact set that resolves to an implementation is known.", "quantifier": "every string used as identifier", "why_tests_cant": "All strings.", "anchors": ["ndg/xacml/core/functions/__init__.py: FunctionMap.loadFunction, FunctionClassFactoryBase.loadFunction"]}
{"id": "C28", "title": "Function map caching is transparent", "statement": "After any sequence of lookups, loads and failed loads on a function map, looking up an identifier gives the same result as a fresh map would give, unless a custom function was loaded under that identifier.", "quantifier": "every sequence of operations", "why_tests_cant": "History dependence.", "anchors": ["ndg/xacml/core/functions/__init__.py: FunctionMap"]}
{"id": "C29", "title": "Standard functions cannot be replaced by custom loading", "statement": "load_custom_function raises for every identifier of the standard catalogue and leaves the map unchanged, so after any sequence of lookups and custom loads a standard identifier still resolves to the built in function; a custom identifier resolves to the last function successfully loaded for it.", "quantifier": "every sequence of operations", "why_tests_cant": "History dependence.", "anchors": ["ndg/xacml/core/functions/__init__.py: FunctionMap.load_custom_function"]}
{"id": "C30", "title": "Setting the combining algorithm id", "statement": "Assigning a supported id to a policy's ruleCombiningAlgId (a policy set's policyCombiningAlgId) installs exactly the algorithm it names; assigning any other string raises TypeError, yet the id attribute changes while the previously installed algorithm (or none) stays in force, so after any sequence of assignments the algorithm in force is that of the last supported id assigned.", "quantifier": "every sequence of assignments, failing or not", "why_tests_cant": "History dependence; all strings.", "anchors": ["ndg/xacml/core/policy.py: Policy._setRuleCombiningAlgId", "ndg/xacml/core/policyset.py: PolicySet._setPolicyCombiningAlgId"]}
{"id": "C31", "title": "A match never holds both a designator and a selector", "statement": "After any sequence of assignments to a match's attributeDesignator and attributeSelector, failing ones included, at most one is set, it is the last one successfully assigned, and a failed assignment changes nothing.", "quantifier": "every sequence of assignments", "why_tests_cant": "History dependence.", "anchors": ["ndg/xacml/core/match.py: MatchBase"]}
{"id": "C32", "title": "Function loading on assignment of a match or function id", "statement": "After any sequence of assignments to matchId / functionId (with automatic loading on), the function in force is the one of the last id whose assignment succeeded; if the last assignment failed with an unsupported function, the id shown no longer names the function in force.", "quantifier": "every sequence of assignments", "why_tests_cant": "History dependence.", "anchors": ["ndg/xacml/core/match.py: MatchBase._setMatchId", "ndg/xacml/core/apply.py: Apply._set_functionId"]}
{"id": "C33", "title": "Attribute values always hold a value of their native type", "statement": "After any sequence of assignments to an attribute value object, its value is unset or an instance of the class's native type; a rejected assignment leaves the object unchanged; a base64Binary value can never hold anything.", "quantifier": "every sequence of assignments of arbitrary Python values", "why_tests_cant": "Arbitrary values and histories.", "anchors": ["ndg/xacml/core/attributevalue.py: AttributeValue._set_value"]}
{"id": "C34", "title": "Attribute value equality", "statement": "Comparing two attribute values of the same class is equality of their underlying values (an equivalence except for not-a-number); comparing values of different classes raises TypeError in either order, never returns False.", "quantifier": "every pair of attribute values", "why_tests_cant": "Infinite domain.", "anchors": ["ndg/xacml/core/attributevalue.py: AttributeValue.__eq__"]}
{"id": "C35", "title": "Attribute value class registry", "statement": "The factory maps each of the sixteen standard data type URIs to its own class, unknown URIs to nothing; adding a custom class without overwrite never changes an existing mapping; adding with overwrite changes exactly that one; invalid classes are rejected and change nothing; after any sequence of additions every registered class is a valid attribute value class.", "quantifier": "every sequence of additions and every URI", "why_tests_cant": "History dependence; all strings.", "anchors": ["ndg/xacml/core/attributevalue.py: AttributeValueClassFactory, AttributeValueClassMap"]}
{"id": "C36", "title": "TypedList keeps only elements of its type through append, extend and +=", "statement": "A TypedList created empty and changed only by append, extend and += (failing or not) contains only instances of its element type; a rejected operation leaves the list unchanged, even when only the last of many items is of the wrong type; accepted operations append exactly the given items in order.", "quantifier": "every sequence of operations", "why_tests_cant": "History dependence, arbitrary sizes.", "anchors": ["ndg/xacml/utils/__init__.py: TypedList"]}
{"id": "C37", "title": "UniqList append never introduces a duplicate", "statement": "A UniqList built by append (and by extend or += with duplicate-free inputs) never contains two equal elements, keeps first-insertion order, and contains exactly the values offered; extend with an input that itself contains duplicates can introduce them.", "quantifier": "every sequence of operations", "why_tests_cant": "History dependence.", "anchors": ["ndg/xacml/utils/__init__.py: UniqList"]}
{"id": "C38", "title": "VettedDict stores only what its filters accept", "statement": "After any sequence of item assignments and deletions, every key and value stored in a VettedDict satisfied both filters; a rejected assignment changes nothing and is silent; lookups return the last accepted assignment; get on an absent key returns None even when one default is supplied.", "quantifier": "every sequence of operations and every pair of filters", "why_tests_cant": "History dependence, arbitrary filters.", "anchors": ["ndg/xacml/utils/__init__.py: VettedDict"]}
{"id": "C39", "title": "RestrictedKeyNamesDict never gains a key", "statement": "After any sequence of item assignments and updates, failing or not, the key set of a RestrictedKeyNamesDict is the one it was created with; a rejected update changes nothing.", "quantifier": "every sequence of operations", "why_tests_cant": "History dependence.", "anchors": ["ndg/xacml/utils/__init__.py: RestrictedKeyNamesDict"]}
{"id": "C40", "title": "Effects and decisions stay in their vocabulary", "statement": "After any sequence of assignments to an Effect's or Decision's value, failing or not, the value is one of the vocabulary's strings; a rejected assignment changes nothing; comparison with a string outside the vocabulary raises.", "quantifier": "every sequence of assignments of arbitrary values", "why_tests_cant": "History dependence, arbitrary values.", "anchors": ["ndg/xacml/core/rule.py: Effect", "ndg/xacml/core/context/result.py: Decision, StatusCode"]}
{"id": "C41", "title": "Shared decision objects are not protected against assignment", "statement": "The shared PERMIT, DENY, INDETERMINATE and NOT_APPLICABLE decision objects are handed out by evaluation; assigning to the value of the decision in a returned response changes the shared object, so a program that does so changes the decision returned by later evaluations; a program that never assigns to a decision's value always sees each shared object with its original value.", "quantifier": "every sequence of evaluations and assignments", "why_tests_cant": "Aliasing effects over arbitrary histories.", "anchors": ["ndg/xacml/core/context/result.py: PermitDecision, DenyDecision, Decision.PERMIT"]}
{"id": "C42", "title": "A response has exactly one result carrying the policy's decision", "statement": "evaluateResponse returns a response with exactly one result whose decision equals the decision evaluate returns for the same policy and request; PDP.evaluate returns the same response and raises exactly when the PDP has no policy.", "quantifier": "every policy tree and request", "why_tests_cant": "All trees.", "anchors": ["ndg/xacml/core/policybase.py: PolicyBase.evaluateResponse", "ndg/xacml/core/context/pdp.py: PDP"]}
{"id": "C43", "title": "Reading a policy preserves every rule in document order", "statement": "If reading a policy document succeeds, the resulting policy's id, combining algorithm, version and rules are those of the document: one rule per Rule element, in document order, with pairwise distinct ids; a document lacking a required attribute, with a duplicate rule id or with an unsupported child element is rejected.", "quantifier": "every element tree", "why_tests_cant": "All documents.", "anchors": ["ndg/xacml/parsers/etree/policyreader.py: PolicyReader", "ndg/xacml/parsers/etree/rulereader.py: RuleReader"]}
{"id": "C44", "title": "Reading inverts writing for every expressible policy", "statement": "For every policy that the reader can represent (string typed values, supported functions), reading the canonical XML of the policy yields that policy, in particular nothing is dropped, reordered or merged: targets, matches, conditions, nested applications, designators, selectors.", "quantifier": "every policy of any size and expression depth", "why_tests_cant": "All policies.", "anchors": ["ndg/xacml/parsers/etree"]}
{"id": "C45", "title": "Policy set reading and reference resolution", "statement": "If reading a policy set succeeds then its children correspond one to one, in order, to the Policy, PolicySet, PolicyIdReference and PolicySetIdReference children of the document; every reference was resolved to a policy (set) whose id is the referenced id; an unresolvable reference rejects the whole document.", "quantifier": "every document tree and every finder content", "why_tests_cant": "All documents.", "anchors": ["ndg/xacml/parsers/etree/policysetreader.py", "ndg/xacml/finder/localpolicyfinder.py"]}
{"id": "C46", "title": "Policy registries never hold two policies under one id", "statement": "Through any sequence of registrations, each id maps to the first policy registered under it; registering a second policy (set) under a taken id raises and changes nothing; a lookup returns only a policy whose own id is the one asked for.", "quantifier": "every sequence of registrations and lookups", "why_tests_cant": "History dependence.", "anchors": ["ndg/xacml/finder/policyfinderbase.py", "ndg/xacml/finder/localpolicyfinder.py"]}
{"id": "C47", "title": "Remote references: fetched once, cycles never accepted", "statement": "With the URL finder, a successful read fetches each referenced document at most once, a reference is satisfied only by a policy (set) with that id, the result does not depend on the recursion limit, and a policy set that refers to itself through any chain of references is never accepted.", "quantifier": "every web of documents and every reference graph", "why_tests_cant": "Arbitrary reference graphs.", "anchors": ["ndg/xacml/finder/urlpolicyfinder.py", "ndg/xacml/parsers/etree/policysetreader.py"]}
{"id": "C48", "title": "Reference to URL construction", "statement": "http, https and ftp references and absolute file references are used unchanged; relative references are placed under the base path, except that file://./ followed by an absolute path is taken as that absolute path; the result always starts with a scheme, and without a base path a relative reference raises.", "quantifier": "every reference string and base path", "why_tests_cant": "All strings.", "anchors": ["ndg/xacml/finder/urlpolicyfinder.py: UrlPolicyFinder._makeUrlFromReference"]}
{"id": "C49", "title": "Request serialisation round trip", "statement": "Call a request sendable if it has an action and an environment, every attribute has an id, a data type and at least one value, the values are of the class registered for the attribute's data type and hold a string or nothing, and resource contents are ResourceContent elements. Exactly for the sendable requests, reading the XML written for it yields the same subjects, resources, action, environment, attributes, issuers and values in the same order, except that each subject's category is reset to access-subject; and every policy decides on the request read as on the request written. A request without action or environment cannot be written.", "quantifier": "every request of any size", "why_tests_cant": "All requests.", "anchors": ["ndg/xacml/parsers/etree/context.py"]}
{"id": "C50", "title": "Response serialisation round trip", "statement": "For every response whose results have a decision and no resource id, reading the XML written for it yields the same decisions in the same order; writing a response raises if some result has a resource id or no decision.", "quantifier": "every response of any length", "why_tests_cant": "All responses.", "anchors": ["ndg/xacml/parsers/etree/context.py: ResponseElementTree, ResultElementTree, DecisionElementTree"]}
{"id": "C51", "title": "Condition truth is Python truth", "statement": "A rule whose condition evaluates to a boolean attribute value, even the value False, applies its effect, because the attribute value object is tested for truth; a condition that evaluates to a bag applies the effect exactly when the bag is not empty; only functions returning plain booleans behave as specified.", "quantifier": "every condition result", "why_tests_cant": "Tests use boolean functions only.", "anchors": ["ndg/xacml/core/rule.py: Rule.evaluate"]}
{"id": "C52", "title": "String to boolean conversion", "statement": "str2Bool is True exactly for the strings that are, ignoring case, yes, true, t or 1.", "quantifier": "every string", "why_tests_cant": "All strings.", "anchors": ["ndg/xacml/utils/__init__.py: str2Bool"]}
{"id": "C53", "title": "Proxy bypass list", "statement": "A URL is fetched without proxy exactly when its host name equals one of the comma separated, blank trimmed entries of the no_proxy setting; entries never match by prefix or suffix.", "quantifier": "every host and no_proxy string", "why_tests_cant": "All strings.", "anchors": ["ndg/xacml/utils/urlfetcher.py: _should_use_proxy"]}
{"id": "C54", "title": "Qualified name handling", "statement": "The local part of {ns}name is name and its namespace is ns, for every ns without a closing brace or line break and every name without a closing brace; a name without braces is its own local part.", "quantifier": "every string", "why_tests_cant": "All strings.", "anchors": ["ndg/xacml/parsers/etree/__init__.py: QName"]}
{"id": "C55", "title": "Context errors carry one indeterminate result", "statement": "Every XacmlContextError (and subclass) carries a response with exactly one result, decision Indeterminate and the given message as status message.", "quantifier": "every message and status code", "why_tests_cant": "All messages.", "anchors": ["ndg/xacml/core/context/exceptions.py"]}
{"id": "C56", "title": "Irrelevant request attributes do not matter", "statement": "Without context handler and selectors, adding to any part of the request an attribute that no designator in the policy tree asks for does not change the decision of the policy or policy set.", "quantifier": "every policy tree, request and irrelevant attribute, at any position", "why_tests_cant": "Relates two unbounded evaluations.", "anchors": ["ndg/xacml/core/attributedesignator.py", "ndg/xacml/core/policybase.py"]}
{"id": "C57", "title": "Decisions do not depend on the order of request contents", "statement": "Without context handler and selectors, if regular expressions fail to compile only with ordinary exceptions, and with the built in functions or user functions whose result does not depend on the order of the bags they get, permuting the subjects, the resources, the attributes within them and the values within an attribute does not change the decision of any policy tree.", "quantifier": "every policy tree, request and permutation", "why_tests_cant": "Relates n! evaluations.", "anchors": ["ndg/xacml/core/attributedesignator.py", "ndg/xacml/core/policybase.py"]}
{"id": "C58", "title": "Attribute source that changes its answers", "statement": "Even if the attribute source answers depend on the whole history of queries, evaluation of any policy tree returns one of the four decisions, consults the source only through subject designators, and only with the designator and request being evaluated; if the answers do not depend on the history, repeated evaluation of the same request gives the same decision.", "quantifier": "every policy tree, request, history dependent attribute source and prior history", "why_tests_cant": "Arbitrary schedules of external answers.", "anchors": ["ndg/xacml/core/attributedesignator.py", "ndg/xacml/core/context/handlerinterface.py"]}
{"id": "C59", "title": "Grouping, subject categories and resource contents do not matter", "statement": "Without context handler and selectors, two requests with the same sequence of subject attributes, the same sequence of resource attributes, the same action and the same environment get the same decision from every policy tree, however the attributes are distributed over subjects and resources and whatever the subject categories and resource contents are.", "quantifier": "every policy tree and pair of such requests", "why_tests_cant": "Relates two unbounded evaluations.", "anchors": ["ndg/xacml/core/attributedesignator.py", "ndg/xacml/core/context/request.py", "ndg/xacml/core/context/subject.py"]}
{"id": "C60", "title": "Request documents mean what they contain", "statement": "Reading an element tree as a request succeeds exactly if the root is called Request in any namespace, its child elements are called Subject, Resource, Action or Environment, and every Attribute child of these has AttributeId, DataType, at least one child and only AttributeValue child elements that fit a class registered for the type; the request has the subjects, resources and attributes in document order, the default subject category where none is given, and of repeated Action, Environment and ResourceContent elements the last.", "quantifier": "every element tree and class map", "why_tests_cant": "All documents.", "anchors": ["ndg/xacml/parsers/etree/context.py: RequestElementTree, SubjectElementTree, ResourceElementTree, ActionElementTree, EnvironmentElementTree, AttributeElementTree"]}
{"id": "C61", "title": "Response documents mean what they contain", "statement": "Reading an element tree as a response succeeds exactly if the root is called Response, its child elements are called Result and theirs Decision with one of the four decisions as text; the response has one result for each Result element in document order, with the given resource id, the last decision given and neither status nor obligations.", "quantifier": "every element tree", "why_tests_cant": "All documents.", "anchors": ["ndg/xacml/parsers/etree/context.py: ResponseElementTree, ResultElementTree, DecisionElementTree"]}
{"id": "C62", "title": "Threads do not disturb each other", "statement": "If several threads evaluate policies at the same time, sharing the regular expression cache and the attribute source, then under every schedule of their cache and source accesses a finished thread has exactly the decisions it would have had alone, provided the source's answers do not depend on earlier queries; with any source every outcome is a decision or a collaborator's exception outside Exception, the source is asked only on behalf of the threads' own evaluations, the cache never holds an expression under another pattern, and every thread that is scheduled again and again finishes whatever the others do.", "quantifier": "every number of threads, list of evaluations for each, attribute source and schedule, finite or endless", "why_tests_cant": "Schedules are unbounded and a race shows only on some of them.", "anchors": ["ndg/xacml/core/functions/v1/regexp_match.py: RegexpMatchBase.evaluate", "ndg/xacml/core/policybase.py", "ndg/xacml/core/attributedesignator.py"]}
{"id": "C63", "title": "Algebra of combining", "statement": "Under every combining algorithm, inserting a rule or child policy that decides NotApplicable, or a further copy of one that is already there, leaves the decision of the policy or policy set unchanged; a nested policy set without target and with the same algorithm may be replaced by its children; the outcome for two groups of children together is determined by the outcomes for each group as the decision of higher rank for the algorithm; adding a rule that has an effect and lets no exception escape never takes away a Deny of deny-overrides or a Permit of permit-overrides; and replacing subtrees by subtrees with the same decision keeps the decision.", "quantifier": "every policy tree, request, position and algorithm", "why_tests_cant": "Relates unboundedly many pairs of policy trees.", "anchors": ["ndg/xacml/core/rule_combining_alg.py", "ndg/xacml/core/policy_combining_alg.py", "ndg/xacml/core/policybase.py: PolicyBase.evaluate"]}
{"id": "C64", "title": "Pretty printing keeps the document", "statement": "For an element tree whose elements are all in namespaces, with text only before the first and after the last child and with characters that need no escaping, the pretty printed text, read again as XML, gives the same elements, attributes and texts up to white space at the ends of texts, and printing that again gives the same text. Printing succeeds if there is no comment and there are at most 256 namespaces (with lxml: if every element knows its namespaces); otherwise it raises TypeError or KeyError. The registered prefixes of xml.etree are unchanged after a successful call and never lost.", "quantifier": "every element tree, every map of registered prefixes and every indentation", "why_tests_cant": "Trees of every depth and width and every allocation of prefixes; the reader side is not in the repository.", "anchors": ["ndg/xacml/utils/etree.py: prettyPrint, _PrettyPrint"]}
{"id": "C65", "title": "From policy document to response document", "statement": "A decision point that has loaded a policy document answers a request document with a response document holding exactly one result and one decision; the decision is the one which the policy that the policy document means, with its resolved references, makes on the request that the request document means. There is an answer if and only if both documents have a meaning and the evaluation raises nothing, which is so for all meaningful documents if the collaborators raise nothing worse than an Exception. Permit is answered only if some Rule element with effect Permit, in the policy document or in one fetched for it, applies to the request; Deny only if such a rule with effect Deny applies or a member of a policy set element with deny-overrides is Indeterminate. A client which writes its request, sends it and reads the response has the decision the policy makes on its own request.", "quantifier": "every policy document, web of referenced documents, request document, reader and element implementation", "why_tests_cant": "All documents and all policies; composes reading, reference resolution, evaluation and writing.", "anchors": ["ndg/xacml/core/context/pdp.py: PDP.fromPolicySource, PDP.setPolicyFromSource, PDP.evaluate", "ndg/xacml/parsers/etree/context.py: RequestElementTree, ResponseElementTree", "ndg/xacml/parsers/etree/policyreader.py", "ndg/xacml/core/policybase.py: PolicyBase.evaluateResponse"]}
{"id": "C66", "title": "Faults never grant access", "statement": "Suppose the attribute source at any time, and the XPath engine, custom functions and regular expression compilation on any input, may raise an Exception instead of giving their answer. Then, for every history of evaluations, a decision Permit is also the decision without faults, and so is NotApplicable; a policy, or a tree whose policy sets are all first-applicable, decides as without faults or Indeterminate; and there always is a decision if nothing worse than an Exception is raised. (Policy sets with override algorithms may turn other decisions into Deny, and a source that hides a fault as an empty answer may turn Deny into Permit.)", "quantifier": "every policy tree, request, environment, pattern of faults over time and history of evaluations", "why_tests_cant": "All patterns of faults over unbounded histories and all policy trees; relates two evaluations.", "anchors": ["ndg/xacml/core/rule.py: Rule.evaluate", "ndg/xacml/core/policybase.py: PolicyBase.evaluate", "ndg/xacml/core/rule_combining_alg.py", "ndg/xacml/core/policy_combining_alg.py"]}
{"id": "C67", "title": "How often the attribute source is asked", "statement": "One evaluation asks the attribute source at most once for each subject designator occurring in the policy tree and each subject of the request, whatever it answers; a sequence of evaluations at most the sum; never if the request has no context handler. The bound is attained for all numbers of designators and subjects.", "quantifier": "every policy tree, request, attribute source and history of evaluations", "why_tests_cant": "A bound for unboundedly large trees, requests and histories.", "anchors": ["ndg/xacml/core/attributedesignator.py", "ndg/xacml/core/target.py: Target.match", "ndg/xacml/core/policybase.py: PolicyBase.evaluate"]}
{"id": "C68", "title": "Layout of documents does not matter", "statement": "Two policy, request or response documents that differ only in the namespaces of their elements, in the order of XML attributes, in XML attributes XACML does not define, in text of elements that have no text in XACML (indentation) and in comments outside PolicyDefaults and Attribute elements are read as the same object, or both are rejected; with policies referenced from other documents the same documents are fetched; and a decision point gives the same decisions with them. (A comment in PolicyDefaults makes the document be rejected, one in an empty Attribute element makes it be accepted.)", "quantifier": "every pair of documents of any depth and size that differ in layout, and every web of referenced documents", "why_tests_cant": "Relates unboundedly many pairs of documents.", "anchors": ["ndg/xacml/parsers/etree/policyreader.py", "ndg/xacml/parsers/etree/policysetreader.py", "ndg/xacml/parsers/etree/rulereader.py", "ndg/xacml/parsers/etree/targetreader.py", "ndg/xacml/parsers/etree/matchreader.py", "ndg/xacml/parsers/etree/applyreader.py", "ndg/xacml/parsers/etree/attributevaluereader.py", "ndg/xacml/parsers/etree/context.py", "ndg/xacml/utils/etree.py: QName.getLocalPart"]}
{"id": "C69", "title": "Interrupted evaluations grant nothing and leave nothing behind", "statement": "Suppose every elementary step of an evaluation, the exception handlers included, may raise any exception (RecursionError, MemoryError, KeyboardInterrupt, one set by another thread) before or after its effect. Then, after every history of evaluations interrupted in this way, a decision Permit is also the decision without interruptions, and so is NotApplicable; a policy, or a tree whose policy sets are all first-applicable, decides as without interruptions or Indeterminate, unless the exception escapes; and a later evaluation that is not interrupted decides exactly as in a process that never was. (A policy set with an override algorithm may turn an interruption inside into Deny.)", "quantifier": "every policy tree, request, environment, interruption point or points, kind of exception and history of interrupted evaluations", "why_tests_cant": "Every crash point of unboundedly long evaluations and histories; the interpreter raises such exceptions at points a test cannot choose.", "anchors": ["ndg/xacml/core/rule.py: Rule.evaluate", "ndg/xacml/core/policybase.py: PolicyBase.evaluate", "ndg/xacml/core/rule_combining_alg.py", "ndg/xacml/core/policy_combining_alg.py", "ndg/xacml/core/functions/v1/regexp_match.py: RegexpMatchBase.evaluate"]}
{"id": "C70", "title": "The log level does not decide", "statement": "Switching on debug logging changes neither the outcome of an evaluation nor its effects if the match functions of the policy tree return values that can be compared with True, in particular if they are the functions that return truth values. For all trees, Permit with debug logging is also the decision without, and so is NotApplicable; a policy, or a tree whose policy sets are all first-applicable, decides as without or Indeterminate. (With a match function that returns an attribute value, such as string-concatenate, switching on debug logging does turn Permit into Indeterminate.)", "quantifier": "every policy tree, request, environment and history", "why_tests_cant": "All policies and requests; relates two configurations.", "anchors": ["ndg/xacml/core/match.py: MatchBase.evaluate", "ndg/xacml/core/attributevalue.py: AttributeValue.__eq__"]}
{"id": "C71", "title": "Objects built through the API have the documented shape", "statement": "After every history of constructor calls, property assignments and list operations on policy and request objects in any order, some of them refused, each documented attribute of each object is readable and None or of its documented type (the description of a rule is missing until set) and list items are of the element type of their list, provided unchecked list methods (insert), initial list items and attributeValues are used with what belongs there. Every policy object without circular references then stands for exactly one policy, and every request object for exactly one request; an operation on an object that it does not refer to does not change it. An assignment of a value of the documented type is what is read afterwards; one of another type raises TypeError and changes nothing; list and derived attributes cannot be assigned; an id puts its function or algorithm in force or is refused; a new object has its initial values and empty lists of its own; a match never has both a designator and a selector; an operation that raises changes nothing, except that a refused id is kept; no other attribute (except the linked one) and no other object is changed.", "quantifier": "every history of operations, every object graph including shared and circular ones, every value", "why_tests_cant": "All histories over unboundedly many objects, shared objects included.", "anchors": ["ndg/xacml/core/policy.py: Policy", "ndg/xacml/core/policyset.py: PolicySet", "ndg/xacml/core/rule.py: Rule", "ndg/xacml/core/target.py: Target", "ndg/xacml/core/match.py: MatchBase", "ndg/xacml/core/apply.py: Apply", "ndg/xacml/core/condition.py: Condition", "ndg/xacml/core/attribute.py: Attribute", "ndg/xacml/core/attributedesignator.py: AttributeDesignator", "ndg/xacml/core/attributeselector.py: AttributeSelector", "ndg/xacml/core/context/request.py: Request", "ndg/xacml/utils/__init__.py: TypedList"]}
{"id": "C72", "title": "Objects are found and called by name as documented", "statement": "For every module and attribute name without separators, 'm.n', 'm:n' and (m, n) name the same object with the same effects, and 'a.b:c.d' is found by importing a.b and following b, c, d from the package a; nothing else is imported. A name without a separator raises ValueError before anything is imported. With an expected type only subclasses are returned, others raise TypeError. Calling by name calls the object found once with the given arguments and nothing if none is found; a file path that does not exist raises before anything is imported or changed. Without a file path the module search path is left alone; with one it stays extended.", "quantifier": "every name, every state of the interpreter, every behaviour of the modules", "why_tests_cant": "Names are arbitrary strings and the modules are the user's.", "anchors": ["ndg/xacml/utils/factory.py: importModuleObject", "ndg/xacml/utils/factory.py: callModuleObject"]}
{"id": "C73", "title": "The reader of a type is the one registered last or the one inferred from its name", "statement": "After every sequence of registrations, some of them refused, the reader of a type is the one of the last accepted registration for it, and nothing is imported; without one it is the class <name>Reader of the module <lower case name>reader of the package. A registration is accepted exactly for subclasses of the base class with reader classes, changes no other type, and otherwise raises and changes nothing. Inferred readers are not tested to be readers.", "quantifier": "every sequence of registrations, every type and every type name without separators", "why_tests_cant": "All histories of a process wide registry.", "anchors": ["ndg/xacml/parsers/etree/factory.py: ReaderFactory", "ndg/xacml/parsers/etree/factory.py: ETreeReaderClassMap"]}
{"id": "C74", "title": "Threads can share the function map", "statement": "The function map is one object per process and loads functions on demand. Whatever the threads of the process do with it and in whatever order their steps happen, a lookup of an identifier that no thread installs or deletes gives what it gives without threads, wherever the other threads are or were stopped; standard identifiers give the built in function also while custom functions are loaded; a lookup of an identifier that threads install gives what it gave before or one of the installed functions, and an installed one once the installing thread is done, if the identifier is outside the standard namespaces. A thread that is scheduled again and again finishes all its operations; one thread alone is the sequential map. (Within the standard namespaces an installed custom function can be lost to a concurrent lookup, and a lookup concurrent with a deletion can raise KeyError.)", "quantifier": "every earlier history, every number of threads with any sequences of operations, every schedule, every point at which threads are stopped", "why_tests_cant": "Schedules cannot be enumerated by tests, and a test does not control them.", "anchors": ["ndg/xacml/core/functions/__init__.py: FunctionMap.loadFunction", "ndg/xacml/core/functions/__init__.py: FunctionMap.__getitem__", "ndg/xacml/core/functions/__init__.py: FunctionMap.get", "ndg/xacml/core/functions/__init__.py: FunctionMap.load_custom_function", "ndg/xacml/core/functions/__init__.py: functionMap"]}
{"id": "C75", "title": "Evaluating objects is evaluating the policy they stand for", "statement": "A policy object without circular references, evaluated against a request object, gives the decision of the policy it stands for and the request the other stands for, however parts are shared between them; objects that stand for the same policy decide the same. For all objects, also circular ones, the decision depends only on the objects reached from policy and request, so an operation on any other object does not change it. If Python's recursion limit stops the nested calls, Permit and NotApplicable are still what any higher limit gives, so Permit is given only if the policy permits. (Deny is not kept: a nested policy set that cannot be evaluated within the limit counts as Deny under deny-overrides, and a policy set that contains itself denies everything.)", "quantifier": "every object graph including shared and circular ones, every history that built it, every request, collaborator and recursion limit", "why_tests_cant": "Object graphs and recursion limits are unbounded; sharing and circles are states that only some histories reach.", "anchors": ["ndg/xacml/core/policybase.py: PolicyBase.evaluate", "ndg/xacml/core/rule.py: Rule.evaluate", "ndg/xacml/core/target.py: Target.match", "ndg/xacml/core/match.py: MatchBase.evaluate", "ndg/xacml/core/apply.py: Apply.evaluate", "ndg/xacml/core/condition.py: Condition.evaluate", "ndg/xacml/core/attributedesignator.py: SubjectAttributeDesignator.evaluate", "ndg/xacml/core/attributeselector.py: AttributeSelector.evaluate"]}
{"id": "C76", "title": "Copies of objects are faithful and independent, or refused", "statement": "copy.deepcopy and pickling of request, response, result, decision, effect and PDP objects either raise or give an object whose parts correspond one to one to those of the original, with the same classes, the same sharing and circles, the items of lists in order, and exactly the attributes that the class saves, each a copy; nothing of the original is changed and nothing is in common. Where each object met can be copied, a copy is made; a higher recursion limit does not change it. A copied response has the same results, in order, with the same decisions and resource identifiers. copy.copy makes one new object with the same values of the saved attributes. (Attributes and all policy objects other than matches cannot be copied, so no request with an attribute can be; matches and attribute values lose everything; a subject loses its category, a status all it says; pickle protocols from 2 on cannot copy a list with items, so no response with a result.)", "quantifier": "every object graph including shared and circular ones, every behaviour of the objects from outside, every recursion limit, deepcopy and every pickle protocol", "why_tests_cant": "Object graphs are unbounded, and sharing and circles decide the order in which copies are made and filled.", "anchors": ["ndg/xacml/core/__init__.py: XacmlCoreBase.__getstate__", "ndg/xacml/core/context/__init__.py: XacmlContextBase.__setstate__", "ndg/xacml/core/context/request.py: Request.__getstate__", "ndg/xacml/core/context/resource.py: Resource.__getstate__", "ndg/xacml/core/context/response.py: Response.__getstate__", "ndg/xacml/core/context/result.py: Result.__getstate__", "ndg/xacml/core/context/result.py: Decision.__getstate__", "ndg/xacml/core/attribute.py: Attribute.__getstate__", "ndg/xacml/core/expression.py: Expression.__getstate__", "ndg/xacml/core/attributevalue.py: AttributeValue.__getstate__", "ndg/xacml/core/rule.py: Effect.__getstate__", "ndg/xacml/utils/__init__.py: TypedList"]}
{"id": "C77", "title": "Loading from a source puts in force what the source says, or nothing", "statement": "After every history of making finders and PDPs, loading policies into PDPs and assigning policies, some of it refused, a PDP has the policy given to it by the last operation on it that succeeded: the one assigned, or what the source, the documents it refers to and the finder said at that time; an operation that raises leaves all PDPs as they were. A path, a stream and an element with the same content do the same. Without a finder each load is independent of what was loaded before, and references are resolved against the directory of the path, so that relative references in d/f are to d/. A finder only gains policies, also in a load that fails, holds no two of one name, and is changed by nothing but loading with it; so one finder loads a policy of one name once. (A policy that has changed cannot be loaded again with the same finder, nor can a load that failed be tried again; a file in the working directory given by its bare name takes references for host names; sources other than paths need a finder; PolicySet.fromSource always raises.)", "quantifier": "every history of operations, every behaviour of the file system and the web over time, every document and path", "why_tests_cant": "All histories, with sources that change and fetches that fail at any moment.", "anchors": ["ndg/xacml/core/context/pdp.py: PDP.fromPolicySource", "ndg/xacml/core/context/pdp.py: PDP.setPolicyFromSource", "ndg/xacml/core/policybase.py: PolicyBase.fromSource", "ndg/xacml/core/policy.py: Policy.fromSource", "ndg/xacml/core/policyset.py: PolicySet.fromSource", "ndg/xacml/finder/defaultfinder.py: getDefaultPolicyFinder", "ndg/xacml/finder/policyfinderbase.py: PolicyFinderBase", "ndg/xacml/finder/urlpolicyfinder.py: UrlPolicyFinder", "ndg/xacml/parsers/etree/reader.py: ETreeAbstractReader._parse"]}
{"id": "C78", "title": "A PDP can be given another policy while threads evaluate", "statement": "When several threads use the same PDPs, each evaluating, reading or assigning the policy or loading it from a source, the calls behave as if each took place in one moment between its beginning and its end: an evaluation decides by one whole policy which was in force at some time during the call, and by the policy set last if no call that sets it overlaps; a policy that is being loaded is not in force before it is read completely; a refused assignment or a failed load changes nothing for anyone. The policy changes only in such a call, to the policy of that call. Each thread has its answers in the order of its calls, and no call waits for another thread. (Supposing that the answers of the attribute source do not depend on earlier queries; without that each evaluation still ends with a decision or an exception of a collaborator.)", "quantifier": "every number of threads with any sequences of calls, every schedule, every policy, source and request", "why_tests_cant": "Schedules cannot be enumerated by tests, and a test does not control them.", "anchors": ["ndg/xacml/core/context/pdp.py: PDP.evaluate", "ndg/xacml/core/context/pdp.py: PDP.policy", "ndg/xacml/core/context/pdp.py: PDP.setPolicyFromSource", "ndg/xacml/core/policybase.py: PolicyBase.evaluateResponse"]}
{"id": "C79", "title": "Reading, printing and writing keep the namespace prefixes of the process", "statement": "With xml.etree, readers and the printer change the table of namespace prefixes that all of the process shares. Parsing a document and printing one leave the table as it was, and prefixes given by writing elements in between stay. Whatever happens to the table while a reader exists is undone when it is deleted, if readers are deleted in the reverse order of their creation. Readers in several threads in any order leave the prefix of every URI but the empty one as it was; no history makes entries but those written, those the printer makes up for URIs of the tree, and the one for the empty URI. (A prefix given while a reader exists is lost; readers that overlap without being nested leave the entry for the empty URI behind for good; a printer that fails leaves prefixes behind; who holds the old table does not see the restored one.) A reader class without a type is refused without effect. With lxml the table is not touched.", "quantifier": "every history of creations and deletions of readers, printing, writing and changes by others; every interleaving of readers; every table before", "why_tests_cant": "Histories and interleavings over state shared by the whole process.", "anchors": ["ndg/xacml/parsers/etree/reader.py: ETreeAbstractReader.__init__", "ndg/xacml/parsers/etree/reader.py: ETreeAbstractReader.__del__", "ndg/xacml/parsers/etree/__init__.py: makeEtreeElement", "ndg/xacml/utils/etree.py: prettyPrint"]}
{"id": "C80", "title": "XPath selectors select by place below the context element", "statement": "selectText with a path of names or *, joined by / and //, gives the texts of the elements whose way down from the context element fits the path, and of no others; each element once if the path has at most one //. Paths that begin with /, with ./ and with a name mean the same: all are taken from the context element, which itself is never selected. An attribute selector for strings that uses it gives a bag with one value for each such element, and fails if one of them has no text. (Where XPath takes a path that begins with / from the document, this takes it from the context element; with two // an element can be given twice; the order is not that of the document.) With lxml elements give their text and strings themselves, in the order of XPath.", "quantifier": "every element tree, every path of this form, every answer of lxml's XPath", "why_tests_cant": "All trees and all paths; the known cases are a few documents.", "anchors": ["ndg/xacml/utils/xpath_selector.py: EtreeXPathSelector.selectText", "ndg/xacml/core/attributeselector.py: AttributeSelector.evaluate"]}
{"id": "C81", "title": "The whole process uses one element tree library", "statement": "If the user does not change Config.use_lxml after the first module is loaded, all modules of the package agree whether they use lxml, with each other and with Config, in whatever order they are loaded and whatever can be imported at the time; they use the same library if xml.etree can be imported. If Config.use_lxml is not set, the first module to be loaded decides: lxml if it can be imported. If it is set, it is respected, and where lxml is asked for but missing loading fails. (A later change leaves modules with different libraries. If lxml raises something else than ImportError, the first module fails and later ones use xml.etree.)", "quantifier": "every order of loading modules, every behaviour of imports over time, every assignment", "why_tests_cant": "Orders of loading and environments are unbounded; a test process loads its modules once.", "anchors": ["ndg/xacml/__init__.py: Config", "ndg/xacml/__init__.py: importElementTree"]}
{"id": "C82", "title": "Threads that load through one finder get what their documents say", "statement": "When several threads load documents one after the other through one finder object, whatever the schedule and whatever the web gives at what time: a load that succeeds gives the policy that its document means, each reference standing for a policy of that name which the finder held at the start or which one of the documents that can be reached says; the finder holds under a name only such policies, and never loses a name. A document whose name the finder holds when the thread starts is refused. A thread whose names and references no other thread registers has the outcomes it has in a process of its own. Every thread that gets its turns finishes with one outcome for each document. (Two threads can both load policies of the same name, which one after the other they cannot, and the finder then holds the one registered last; a reference inside a document can then stand for the other thread's policy rather than the one of its own document; threads that refer to the same remote document can fail with an error about a duplicate though they load in any order one after the other.)", "quantifier": "every number of threads with any documents, every schedule, every behaviour of the web over time, every finder state at the start", "why_tests_cant": "Schedules cannot be enumerated by tests, and a test does not control them.", "anchors": ["ndg/xacml/finder/policyfinderbase.py: PolicyFinderBase.addPolicyReference", "ndg/xacml/finder/policyfinderbase.py: PolicyFinderBase.addPolicySetReference", "ndg/xacml/finder/urlpolicyfinder.py: UrlPolicyFinder.findPolicy, UrlPolicyFinder._findPolicyFromReference", "ndg/xacml/parsers/etree/policysetreader.py: PolicySetReader.processElement", "ndg/xacml/parsers/etree/policyreader.py: PolicyReader.processElement"]}
{"id": "C83", "title": "Fetching by URL makes one request and goes past the proxies exactly for listed hosts", "statement": "fetch_data_from_url and fetch_stream_from_url make one request, to the given URL. It goes past the configured proxies exactly if the environment variable no_proxy, read anew at each call, lists the host of the URL, in lower case, between commas with white space around it ignored; the host is found whatever user, port, path, query and fragment the URL has. A URL without a host uses the proxies, and one that cannot be parsed is refused without a request. The data or the stream of the response is what the server gave; an HTTP error becomes an Exception with its text, other errors stay as they are. The responses that stay open are exactly those handed out as streams and not yet closed by the caller, and those of calls that failed while reading the data. (So a failing read leaks a response; hosts in no_proxy with capitals or ports never fit.)", "quantifier": "every URL, every no_proxy setting, every history of fetches and closings, every behaviour of the servers", "why_tests_cant": "URLs and settings are unbounded, and servers fail at any moment.", "anchors": ["ndg/xacml/utils/urlfetcher.py: fetch_data_from_url", "ndg/xacml/utils/urlfetcher.py: fetch_stream_from_url", "ndg/xacml/utils/urlfetcher.py: open_url", "ndg/xacml/utils/urlfetcher.py: _should_use_proxy"]}
{"id": "C84", "title": "Custom data types are read with the class and the reader registered for them", "statement": "Whatever attribute value classes and content readers were registered before, an AttributeValue element of a data type is read with the class registered for the type, the first one unless a later one was to overwrite it, and with the content reader registered last; without a class XMLParseError is raised, without a reader KeyError. Registering a reader with something else than a string and a reader class raises TypeError and has no effect. A reader for a data type changes nothing about reading documents that have no value of this type, neither in themselves nor in documents they refer to. (Without registrations, of the standard data types only those whose values are strings can be read: for the others, such as integer, boolean or dateTime, every value raises TypeError.)", "quantifier": "every history of registrations, every document, every behaviour of custom readers", "why_tests_cant": "Histories, documents and readers are unbounded.", "anchors": ["ndg/xacml/parsers/etree/attributevaluereader.py: AttributeValueReader", "ndg/xacml/parsers/etree/attributevaluereader.py: DataTypeReaderClassFactory", "ndg/xacml/parsers/etree/attributevaluereader.py: ETreeDataTypeReaderClassMap", "ndg/xacml/core/attributevalue.py: AttributeValueClassFactory.addClass"]}
{"id": "C85", "title": "Policies read from documents are object graphs that stand for the document", "statement": "Reading a policy document makes objects that stand for the policy that the document means: their attributes and lists, down to values and effects, are those of the document, and evaluating them gives the decisions of the document; otherwise the exception that the document calls for is raised. The returned object is new and is the one that the finder holds under its id. Reading, successful or not, changes no object that was there before, registers no function and removes or replaces nothing that the finder holds. With a new finder, no object made before is part of the policy. In every state of a program that builds and changes objects, reads documents, registers functions and makes finders, all attributes are of their documented types and a finder holds at most one object under each name. The members of all policy sets that a finder holds are held by it too, and those of the same name are one object, so that a change of one shows in all sets. (A failed read leaves what it registered with the finder.)", "quantifier": "every document, every finder and web, every state of the objects and of the finder before, every program that mixes reading with the API", "why_tests_cant": "Documents, references among them, heaps and histories are unbounded; sharing shows only when objects are changed later.", "anchors": ["ndg/xacml/parsers/etree/policyreader.py: PolicyReader.processElement", "ndg/xacml/parsers/etree/policysetreader.py: PolicySetReader.processElement", "ndg/xacml/parsers/etree/rulereader.py: RuleReader.__call__", "ndg/xacml/parsers/etree/targetreader.py: TargetReader.__call__", "ndg/xacml/parsers/etree/applyreader.py: ApplyReader.__call__", "ndg/xacml/finder/policyfinderbase.py: PolicyFinderBase"]}
{"id": "C86", "title": "Evaluating a policy while other threads change objects", "statement": "If, while a policy is evaluated for a request, no other thread changes an object that is part of the policy or the request, evaluate ends and gives the decision it gives alone, whatever else is made, changed or read meanwhile. If the only such change is that rules (or policies) are added at the end of the list of the policy (or policy set) under evaluation, the decision is that of the policy as it is at one moment of the evaluation. (Not so for other changes: deleting a rule that does not apply can make a deny-overrides policy permit although it denies before and after; inserting a Deny rule at the front and then appending a Permit rule can give Permit although at no moment the policy permits; appending a match to a target that is being compared makes the evaluation fail.)", "quantifier": "every policy, request and evaluation limit; every schedule of the steps of the evaluation and the operations of other threads", "why_tests_cant": "The schedules are unbounded, and a test cannot choose between which two reads of an attribute another thread runs.", "anchors": ["ndg/xacml/core/policybase.py: PolicyBase.evaluate", "ndg/xacml/core/rule_combining_alg.py", "ndg/xacml/core/policy_combining_alg.py", "ndg/xacml/core/rule.py: Rule.evaluate", "ndg/xacml/core/target.py: Target.match", "ndg/xacml/core/match.py: MatchBase.evaluate", "ndg/xacml/core/apply.py: Apply.evaluate"]}
{"id": "C87", "title": "Combining algorithms and policies supplied by the user", "statement": "A combining algorithm of the user is asked exactly when the target matches, is told what the elements it asks decide, and its answer is handed on as it is; its exceptions (Exception hierarchy) become Indeterminate, so none leaves Policy.evaluate or PolicySet.evaluate. Policies without classes of the user evaluate as in the other properties, and an algorithm that ends like another one whatever the rules say can be exchanged for it anywhere below standard sets. As nothing checks the answer: a standard policy set treats a string with the name of a decision as this decision, an object equal to no decision as if the policy were not there (deny-overrides included), and becomes Indeterminate at None or another string unless decided before; evaluateResponse raises TypeError for every answer that is no Decision. If the user's algorithms permit only when an element they asked did, Permit always comes from a rule of the tree that evaluates to Permit.", "quantifier": "every tree of policies, policy sets and policies of the user; every behaviour of the user's classes that changes no object; every request", "why_tests_cant": "The user's classes are not known to the tests.", "anchors": ["ndg/xacml/core/policybase.py: PolicyBase.evaluate, PolicyBase.evaluateResponse", "ndg/xacml/core/policy.py: Policy.evaluateCombiningAlgorithm", "ndg/xacml/core/policyset.py: PolicySet.evaluateCombiningAlgorithm", "ndg/xacml/core/rule_combining_alg.py: RuleCombiningAlgInterface", "ndg/xacml/core/policy_combining_alg.py: PolicyCombiningAlgInterface", "ndg/xacml/core/context/result.py: Decision.__eq__, Result.decision"]}
{"id": "C88", "title": "Where combining algorithms come from", "statement": "The algorithm of a policy or policy set is of the class its factory named for the id when the id was last assigned with success; nothing that is registered in a table, assigned to the factory or refused afterwards changes it. An id is accepted exactly if the factory returns a class derived from the interface of this kind of policy and an object can be created; a refused id is stored all the same. Operations on one policy leave the others alone, and a class registered in a table (DEFAULT_MAP included) is there for every policy whose factory has the table, whenever it was made. (So the id does not tell the algorithm: a class registered under it later is not used.)", "quantifier": "every history of registering classes, creating policies and policy sets and assigning factories and ids, with every behaviour of the user's factories and classes whose objects are not None or NotImplemented", "why_tests_cant": "Histories are unbounded and involve code of the user.", "anchors": ["ndg/xacml/core/policy.py: Policy.__init__, Policy._setRuleCombiningAlgFactory, Policy._setRuleCombiningAlgId, Policy._setRuleCombiningAlgFromId", "ndg/xacml/core/policyset.py: PolicySet._setPolicyCombiningAlgFromId", "ndg/xacml/core/rule_combining_alg.py: RuleCombiningAlgClassFactory", "ndg/xacml/core/policy_combining_alg.py: PolicyCombiningAlgClassFactory"]}
{"id": "C89", "title": "What has a bearing on decisions", "statement": "A decision does not depend on ids of rules, policies and policy sets, versions, descriptions, policy defaults, obligations (their ids, FulfillOn values and assignments), the ids by which functions and algorithms were loaded once they are loaded, subject categories or resource contents: assigning these, adding or removing obligations, building new objects and changing objects found only through them changes no decision, before the evaluation or by other threads during it, which ends all the same. Every other attribute of the policy and request classes (the data type of an Apply excepted) does matter: for each there is a policy and a request whose decision changes with it.", "quantifier": "every heap of policy and request objects, every pair of heaps, every history of operations, every interleaving of such operations with the steps of an evaluation; collaborators that do not look at these attributes", "why_tests_cant": "Tests compare decisions of given policies; they cannot compare all policies that differ in the rest.", "anchors": ["ndg/xacml/core/policybase.py: PolicyBase.evaluate", "ndg/xacml/core/policy.py: Policy", "ndg/xacml/core/policyset.py: PolicySet", "ndg/xacml/core/rule.py: Rule.evaluate", "ndg/xacml/core/obligation.py: Obligation", "ndg/xacml/core/policydefaults.py: PolicyDefaults", "ndg/xacml/core/context/subject.py: Subject.subjectCategory", "ndg/xacml/core/context/resource.py: Resource.resourceContent"]}
{"id": "C90", "title": "Effects and decisions are words of their vocabulary, compare by value and cannot be mixed", "statement": "After every history of constructions, assignments, copies and comparisons, over any number of effects of rules, effects of obligations and decisions, of the library's classes and of derived ones, every object has a word of its own class, its value is the one of the last assignment that was taken, and no operation changes another object. Two objects of classes with the same words, or an object and a word, are equal exactly if they say the same, on either side of ==; comparing with any other string raises AttributeError, comparing with anything else (an effect with a decision, an effect of a rule with one of an obligation, None) raises, so a search in a list raises at the first such item. Copies are equal and independent. The effect of a rule is true as a condition exactly if it is Permit; a decision is always true, Deny included. None of them is hashable, and the objects documented as read only can be assigned to.", "quantifier": "every history of operations, any number of objects, every class derived from the three with its own TYPES, every operand", "why_tests_cant": "Tests compare single objects; what a history of assignments through shared objects leaves behind, and comparisons of all kinds of operands, are not covered.", "anchors": ["ndg/xacml/core/rule.py: Effect, PermitEffect, DenyEffect", "ndg/xacml/core/obligation.py: Effect", "ndg/xacml/core/context/result.py: Decision, PermitDecision, DenyDecision, IndeterminateDecision, NotApplicableDecision"]}
{"id": "C91", "title": "Namespace and element of every object", "statement": "Every object of a policy or context class has xmlns and elem: xmlns is the string assigned last, or the XACML 2.0 policy namespace for subjects, resources, actions and environments of targets, or None; elem is what was assigned last or None. Only strings are taken for xmlns. isValidXmlns is true exactly if one of the two prefixes urn:oasis:names:tc:xacml:1.0 and urn:oasis:names:tc:xacml:2.0 was assigned last, so it is false for every object as it was made. Matches, targets and obligations have neither member until assigned and can never be copied or pickled. Placeholders, and derived classes without a local name or match type, raise NotImplementedError.", "quantifier": "every history of constructions and assignments, every class of the library and every class derived from the base classes", "why_tests_cant": "Tests look at a few objects right after construction.", "anchors": ["ndg/xacml/core/__init__.py: XacmlCoreBase, XacmlPolicyBase, TargetChildBase", "ndg/xacml/core/context/__init__.py: XacmlContextBase", "ndg/xacml/core/match.py: MatchBase.__init__", "ndg/xacml/core/target.py: Target.__init__", "ndg/xacml/core/obligation.py: Obligation.__init__", "ndg/xacml/core/variabledefinition.py: VariableDefinition", "ndg/xacml/core/variablereference.py: VariableReference", "ndg/xacml/core/combinerparameter.py: CombinerParameter"]}
{"id": "C92", "title": "A PDP can be served from while policies are built, changed, read and swapped", "statement": "Any number of evaluate calls may go on at once, on any PDPs, while other threads build and change objects, read documents and assign policies. If no operation is called on an object in use, that is on a part of the request of a call going on or of a policy that was in force for its PDP at some time since the call was made, then every response is the one that the PDP would give, alone, at one single moment of the call, and every call that gets to go on ends. So policies may be changed in place while no call uses them, and replaced at any time by building or reading a new one and assigning it. After an assignment, the calls made until the next one are answered by the policy assigned; if it was read from a document, with the response that the document means. An answer never changes. A PDP without policy raises AttributeError. (Changing a policy in place during a call can give Permit though the policy denies at every moment.)", "quantifier": "every interleaving of the steps of any number of calls with operations on objects, readings of documents, registrations of functions; every object graph reachable by such a history; any request and any policies", "why_tests_cant": "A test runs a few interleavings; the claim is about all of them, and about all object graphs.", "anchors": ["ndg/xacml/core/context/pdp.py: PDP.evaluate, PDP.policy, PDP.setPolicyFromSource", "ndg/xacml/core/policybase.py: PolicyBase.evaluateResponse", "ndg/xacml/core/policy.py: Policy.evaluate", "ndg/xacml/core/policyset.py: PolicySet.evaluate"]}
{"id": "C93", "title": "How much larger than its documents a policy can be", "statement": "A policy read from a document without references has at most as many policies, policy sets and subject designators, each counted as often as it occurs, as the document has elements; so one evaluation asks the attribute source at most once for each element of the document and each subject of the request. With references the number is less than two to the power of the number of elements of all documents read (times the largest policy the finder knew before), and no polynomial bounds it: for every n there is a document with 7 + 2n elements, accepted without fetching anything, whose policy has 2^(n+1) - 1 policies and policy sets and whose evaluation asks the attribute source 2^n times for each subject.", "quantifier": "every document, every web of documents, every finder content, request, attribute source and every n", "why_tests_cant": "Bounds for documents of every size, and a family of documents growing without limit.", "anchors": ["ndg/xacml/parsers/etree/policysetreader.py", "ndg/xacml/finder/policyfinderbase.py", "ndg/xacml/core/policybase.py: PolicyBase.evaluate", "ndg/xacml/core/attributedesignator.py"]}
{"id": "C94", "title": "Agreement with the evaluation rules of XACML 2.0", "statement": "Measured against the evaluation rules of the XACML 2.0 core specification (match, target, condition and rule evaluation, and the combining algorithms of its appendix C, with the values retrieved and the results of functions and condition expressions taken as given): as long as conditions and match functions that give a value give a boolean, a policy that decides Permit, Deny or NotApplicable decides what the standard prescribes; a policy set of any depth that decides Permit or NotApplicable does so too; if no policy inside is left Indeterminate every decision is the standard's; and without errors both give the same, definite decision. Policies whose match functions and conditions apply equality, match, regular expression, at-least-one-member-of, and, or not functions give booleans. The deviations: an error in one alternative of a target makes the rule Indeterminate although another alternative holds, so a policy can be Indeterminate, and a policy set Deny, where the standard grants; and a condition evaluating to an attribute value that holds false counts as true, so that a request is granted for which the standard gives NotApplicable.", "quantifier": "every policy and policy set of any depth and width, every request, attribute source, XPath and function outcome", "why_tests_cant": "Agreement with a separately written semantics for all policies and requests.", "anchors": ["ndg/xacml/core/match.py: MatchBase.evaluate", "ndg/xacml/core/target.py: Target.match", "ndg/xacml/core/rule.py: Rule.evaluate", "ndg/xacml/core/policybase.py: PolicyBase.evaluate", "ndg/xacml/core/rule_combining_alg.py", "ndg/xacml/core/policy_combining_alg.py"]}
{"id": "C95", "title": "Typed and unique lists under every method that changes a list", "statement": "The lists of the library (TypedList, UniqList) under any history of append, extend, +=, insert, item and slice assignment and deletion, pop, remove, clear, reverse, *=, sort and repeated __init__ calls: an item of a TypedList that is not an instance of the element type was given to insert, to an item or slice assignment or to a repeated __init__, so all other methods keep it a list of instances; these four accept any item at any place. A UniqList (whose items have a symmetric equality) stays free of duplicates under all methods but these four, *=, and extending it by items equal to each other; each of the five can introduce a duplicate. A failing call other than sort changes nothing.", "quantifier": "every element type test, equality (raising or not), list and sequence of calls with every argument", "why_tests_cant": "All histories of calls on lists of every length.", "anchors": ["ndg/xacml/utils/__init__.py: TypedList, UniqList"]}
{"id": "C96", "title": "Withholding attributes gains nothing where rules only grant and nothing is negated", "statement": "Take two requests without attribute source (ctxHandler), the second holding every value the first holds, in whatever order and grouping, and perhaps more. A designator retrieves from the first only what it retrieves from the second; a target made of designator matches, or a condition that applies neither not, round nor custom functions and uses no selector, that holds for the first holds for the second unless evaluation raises there. Hence a policy or policy set of any depth whose rules are all Permit and that meets no error on the second request permits the second if it permits the first, so a requester cannot gain by withholding attributes; the same for Deny where all rules deny. The restrictions are needed: a Deny rule, a not, or an error met only by the longer request makes withholding pay.", "quantifier": "every environment, every two requests of which one holds more, every expression, target, policy and policy set of any depth and size", "why_tests_cant": "It relates all pairs of requests under all policies.", "anchors": ["ndg/xacml/core/policy.py: Policy.evaluate", "ndg/xacml/core/policyset.py: PolicySet.evaluate", "ndg/xacml/core/rule.py: Rule.evaluate", "ndg/xacml/core/target.py: Target.match", "ndg/xacml/core/apply.py: Apply.evaluate", "ndg/xacml/core/attributedesignator.py: SubjectAttributeDesignator.evaluate"]}
{"id": "C97", "title": "No attribute id, issuer or string is special: consistent renaming changes no decision", "statement": "Replace the attribute ids and issuers of a request and of a policy throughout, different ones by different ones, the attribute source and XPath selector answering accordingly: every policy and policy set decides the same, or lets the same exception out. The same holds when the strings in attribute values are replaced one to one as well, for policies without selectors that apply no regular expression, concatenation or custom function; conditions then evaluate to the renamed value. So no name or value is treated specially by evaluation. Replacing two ids by one, or strings looked into by a regular expression, can change decisions.", "quantifier": "every one to one replacement of ids, issuers and strings, every environment answering accordingly, request, expression, policy and policy set of any depth", "why_tests_cant": "It relates the evaluations under all renamings of all policies and requests.", "anchors": ["ndg/xacml/core/policybase.py: PolicyBase.evaluate", "ndg/xacml/core/rule.py: Rule.evaluate", "ndg/xacml/core/target.py: Target.match", "ndg/xacml/core/match.py: MatchBase.evaluate", "ndg/xacml/core/apply.py: Apply.evaluate", "ndg/xacml/core/attributedesignator.py: SubjectAttributeDesignator.evaluate"]}
{"id": "C98", "title": "A policy load stopped by an exception from outside", "statement": "An exception from outside (KeyboardInterrupt, MemoryError, RecursionError, a time limit) may arrive at any moment while a policy document is loaded. Then the operation raises it, every PDP keeps the policy it had, and the finder holds what it held before and the first of the policies that the complete load adds, in order, no two with one name; if the exception comes too late, the operation does what it does undisturbed. Over histories with stopped loads, finders lose nothing, and what is in force in a PDP is what the last successful operation about it gives. Loading again with the same finder: it is refused if a name written in the document itself is held already, so always if the document has no references and anything was added; it succeeds with the result of the complete load if the load was stopped between members and those before are references; and after any attempts, stopped anywhere and with fetches failing at times, a load that succeeds gives the policy of the undisturbed load, provided that references name what is at their URL. Without that proviso a repeated load may give another policy, or accept what the first refused.", "quantifier": "every document, web, finder contents, stack limit, moment of interruption, history of operations and number of attempts", "why_tests_cant": "There are as many moments as steps of the reading of every document; tests cannot stop a load at each of them.", "anchors": ["ndg/xacml/core/context/pdp.py: PDP.fromPolicySource, PDP.setPolicyFromSource", "ndg/xacml/core/policybase.py: PolicyBase.fromSource", "ndg/xacml/parsers/etree/policysetreader.py: PolicySetReader.processElement", "ndg/xacml/finder/urlpolicyfinder.py: UrlPolicyFinder.findPolicy", "ndg/xacml/finder/policyfinderbase.py: PolicyFinderBase.addPolicyReference"]}
{"id": "C99", "title": "Which exception a refused document raises", "statement": "A document is refused only for a mistake that is in it, and the exception is the one for such a mistake: XMLParseError for a missing attribute, an unknown child element, an unknown data type, a value without text, two sources in a match, a condition that is not one Apply, a rule id used twice, a reference that leads nowhere and a name that is taken; AttributeError for an unknown effect, an unknown child of a match, a reference without text and an unknown decision; TypeError for an unknown combining algorithm, a value of a type that is not a string type, a condition within Apply and, in requests, missing attributes and unknown data types; NotImplementedError for elements that are recognised but not implemented; ImportError for those without a reader class; for functions what looking them up raises; for fetched documents what fetching raises. Conversely a document with any such mistake at any depth is refused; if all its mistakes have the same exception, with that exception. With several mistakes of different kinds the one reached first is reported, so the exception for a given one need not be raised: a policy that is refused stays refused with the same exception whatever children are added after those it has, and if the children before a rule or target are in order the policy is refused as that rule or target is; a policy set stays refused with the same exception likewise, unless the reason is a name already taken, which is noticed after all children, and it is refused as the first refused target, policy or policy set within it is, or for the first reference to nothing the finder holds if this does not fetch.", "quantifier": "every policy document of any size and depth, every policy set document with any web of referenced documents and finder contents, every request and response document", "why_tests_cant": "A test tries one mistake at one place; the claim is about every mistake at every depth and that there are no other reasons for refusal.", "anchors": ["ndg/xacml/parsers/etree/policyreader.py: PolicyReader", "ndg/xacml/parsers/etree/policysetreader.py: PolicySetReader", "ndg/xacml/parsers/etree/rulereader.py: RuleReader", "ndg/xacml/parsers/etree/applyreader.py: ApplyReader", "ndg/xacml/parsers/etree/attributevaluereader.py: AttributeValueReader", "ndg/xacml/parsers/etree/context.py: RequestElementTree.fromXML, ResponseElementTree.fromXML"]}
{"id": "C100", "title": "Access lists, matrices and roles decide as written", "statement": "A decision point that has loaded the policy document of an access list answers the request document of an access with what the list says: under first-applicable what the first line about the access says, under an override the overriding effect if some line about it says so, else the other effect if some line does, NotApplicable if no line is about it. A line is about an access if, for subject, resource and action, one of its alternatives is met entirely (none given means no restriction), where a requirement is met if some value of the attribute in the request (or, for subjects, known to the attribute source) is the text or matches the pattern. So every finite access matrix can be put in force exactly, with any of the three algorithms; and role permissions followed by a line that denies the rest give Permit exactly if the subject has a role with a permission for this resource and action, Deny otherwise.", "quantifier": "every access list (any number of lines, alternatives and requirements, names distinct, texts not empty, patterns valid), every access, namespace, algorithm and attribute source", "why_tests_cant": "A test loads one list and tries some accesses; the claim is about all lists and all accesses, through reading, matching, combining and writing.", "anchors": ["ndg/xacml/core/context/pdp.py: PDP.fromPolicySource, PDP.evaluate", "ndg/xacml/core/target.py: Target.match", "ndg/xacml/core/match.py: MatchBase.evaluate", "ndg/xacml/core/rule_combining_alg.py: FirstApplicableRuleCombiningAlg", "ndg/xacml/parsers/etree/policyreader.py: PolicyReader", "ndg/xacml/parsers/etree/context.py: RequestElementTree.fromXML"]}
{"id": "C101", "title": "The function map under every method of a mapping", "statement": "Whatever methods of a mapping are called on a function map, in any order - item lookup, get with and without defaults, load, load all, custom loading, item assignment and deletion, pop, popitem, clear, setdefault, update, in, len, keys, values, items - each call answers and leaves what an ordered dictionary would, except that asking for an identifier it does not hold first puts in what a new map gives for it. So an identifier gives the class last put under it (by custom loading, assignment or update) and not taken away since (by deletion, pop, popitem or clear), otherwise the built in function; calls that only ask change no lookup; setdefault never puts its default in and get never returns a single default; pop of an identifier that is not held gives the built in function whatever the default; after clear the map answers like a new one. That in tells whether lookup succeeds, and that update respects standard functions, is false.", "quantifier": "every registry of data types, every sequence of calls with any identifiers, values, defaults and factories", "why_tests_cant": "A test tries one method on one map; the claim is about all interleavings of seventeen methods, where inherited methods run overridden ones.", "anchors": ["ndg/xacml/core/functions/__init__.py: FunctionMap.__getitem__, FunctionMap.get, FunctionMap.loadFunction, FunctionMap.load_custom_function, FunctionMap.keyFilter, FunctionMap.valueFilter", "ndg/xacml/utils/__init__.py: VettedDict"]}
{"id": "C102", "title": "What every built in function gives, and which exception it raises", "statement": "For every built in function and every list of arguments one table says what a call gives: and, not, round, equal, match, bag, one-and-only, at-least-one-member-of, regexp-match, concatenate. Each line gives the value or the exception (wrong number of arguments, wrong class, wrong bag, values without text, text that does not compile, classes that are not compared). The call gives what the table says and nothing else, and raises no other exceptions than those listed for its function. round gives the nearest whole number, the even one of two, and there is exactly one. and, not and round refuse attribute values and bags, also boolean and integer ones: they take what other functions return.", "quantifier": "every function, every data type class (also the user's), every list of arguments of any length and kind, every regular expression engine", "why_tests_cant": "Tests call functions with a few arguments; which exception a call raises matters for every list of arguments, and rounding for every number.", "anchors": ["ndg/xacml/core/functions/v1/and.py: And.evaluate", "ndg/xacml/core/functions/v1/not.py: Not.evaluate", "ndg/xacml/core/functions/v1/round.py: Round.evaluate", "ndg/xacml/core/functions/v1/equal.py: EqualBase.evaluate", "ndg/xacml/core/functions/v1/match.py: MatchBase.evaluate", "ndg/xacml/core/functions/v1/bag.py: BagBase.evaluate", "ndg/xacml/core/functions/v1/one_and_only.py: OneAndOnlyBase.evaluate", "ndg/xacml/core/functions/v1/at_least_one_member_of.py: AtLeastOneMemberOfBase.evaluate", "ndg/xacml/core/functions/v1/regexp_match.py: RegexpMatchBase.evaluate", "ndg/xacml/core/functions/v2/concatenate.py: ConcatenateBase.evaluate"]}
{"id": "C103", "title": "Edits that make a policy stricter never grant", "statement": "Let a policy tree be edited by any mixture of these, at any depth: removing Permit rules or policies all of whose rules permit; adding, anywhere, Deny rules or policies all of whose rules deny; narrowing the target of a Permit rule or of a policy that only permits (more matches in its alternatives, fewer alternatives, further sections); widening that of a Deny rule or of a policy that only denies; adding a condition to a Permit rule or joining its condition with others by and, and the reverse for Deny rules; putting a stricter algorithm in place (first-applicable or deny-overrides for permit-overrides, deny-overrides for first-applicable). Then for every request that the policy before decides without errors, what the edited policy permits was permitted before, even if the edited one meets errors; and what was denied is neither permitted nor left undecided. So it is for any sequence of such edits. Where the policy before meets an error this is not so: removing or narrowing the rule that raised it may grant.", "quantifier": "every policy tree, every edit or sequence of edits of these kinds, every request, every attribute finder, XPath engine and custom function", "why_tests_cant": "A test evaluates one policy before and after one edit; that tightening is safe must hold for every policy, every combination of edits and every request.", "anchors": ["ndg/xacml/core/rule.py: Rule.evaluate", "ndg/xacml/core/target.py: Target.match", "ndg/xacml/core/policybase.py: PolicyBase.evaluate", "ndg/xacml/core/rule_combining_alg.py", "ndg/xacml/core/policy_combining_alg.py", "ndg/xacml/core/functions/v1/and.py: And.evaluate"]}
{"id": "C104", "title": "Other ways of writing a policy decide alike", "statement": "These pairs of policies give the same decision for every request, whatever the algorithm and the rules around: the alternatives of a section of a rule's target, and the rule written twice with some of the alternatives each; several rules that differ in their conditions only, and one rule with the disjunction of the conditions, written with not and and; a policy with a target, and the policy without it whose rules have it, joined with their own targets by forming all pairs of alternatives; a match that an attribute equals a value in the target of a rule, and the at-least-one-member-of of a bag of that value in its condition; and within and, and and and flattened; not not and nothing. The move of the target to rules without target and that of the match to the condition hold also where errors arise. The others require that the policy meets no errors: with an error in one alternative the two rules may permit where the one is Indeterminate.", "quantifier": "every policy, every rule and its position, every way of dividing the alternatives, every number of conditions, every target, every attribute and value, every request, attribute finder and custom function", "why_tests_cant": "A test compares two documents for one request; that a policy may be rewritten must hold for every policy and every request.", "anchors": ["ndg/xacml/core/rule.py: Rule.evaluate", "ndg/xacml/core/target.py: Target.match", "ndg/xacml/core/match.py: MatchBase.evaluate", "ndg/xacml/core/apply.py: Apply.evaluate", "ndg/xacml/core/policybase.py: PolicyBase.evaluate", "ndg/xacml/core/functions/v1/at_least_one_member_of.py", "ndg/xacml/core/functions/v1/equal.py", "ndg/xacml/core/functions/v1/and.py", "ndg/xacml/core/functions/v1/not.py"]}
{"id": "C105", "title": "Function class factories make one class for each identifier and keep it", "statement": "A factory derived from FunctionClassFactoryBase can be made exactly if its class sets a suffix, a base class and iterable names; otherwise TypeError. It makes a class exactly for those identifiers whose last segment, up to the suffix, spells a registered data type in camel case (or is one of the two special names); the class has that data type, that identifier and a name made of both. Calling it gives the class it holds, else makes it; it never gives None. Until it is loaded again, every call gives the very same class, whatever else is called, loaded or registered; loading makes a class that differs from all before. No two identifiers share a class. A failure changes nothing. Making all classes gives every name a new class, or stops at the first name that fails, with those before it made and all else untouched; for the factories of the package it succeeds. These answer as function maps take a new factory to do. A factory does not refuse identifiers outside its family.", "quantifier": "every factory class, every base class as an unknown that may raise, every identifier, every table of data types, every history of calls, loads and registrations", "why_tests_cant": "The class given depends on the whole history of the factory and of the table of data types; tests call a factory once or twice.", "anchors": ["ndg/xacml/core/functions/__init__.py: FunctionClassFactoryBase", "ndg/xacml/core/functions/v1/equal.py: FunctionClassFactory", "ndg/xacml/core/functions/v2/concatenate.py: FunctionClassFactory", "ndg/xacml/core/attributevalue.py: AttributeValueClassFactory"]}
{"id": "C106", "title": "Exchanging grants and refusals, and choosing an algorithm", "statement": "A policy with the effect of every rule exchanged, and permit-overrides for deny-overrides, gives Deny where the policy gives Permit, Permit where it gives Deny, and the same otherwise, also where errors arise; so does a policy set of any depth whose policies come to decisions or are combined by first-applicable. For sets with an error in a policy this fails: deny-overrides denies, its mirror image is Indeterminate. Over the same rules or policies permit-overrides grants whatever another algorithm grants, and deny-overrides refuses whatever another refuses; first-applicable lies between them for policies in a set, and for rules if no rule meets an error (refuted otherwise). If all rules or policies that apply give one decision, the three algorithms agree.", "quantifier": "every policy, policy set of any depth, request, attribute finder and custom function, every two of the three algorithms", "why_tests_cant": "Which algorithm a deployment may switch to without granting or refusing more is a claim about all lists of rules and all their outcomes; tests have a few rules.", "anchors": ["ndg/xacml/core/rule_combining_alg.py", "ndg/xacml/core/policy_combining_alg.py", "ndg/xacml/core/rule.py: Rule.evaluate", "ndg/xacml/core/policybase.py: PolicyBase.evaluate"]}
{"id": "C107", "title": "Default rules and rules that cannot matter", "statement": "A rule without target and condition applies to every request. Under first-applicable no rule after it has any effect, even by failing, and as the last rule it decides exactly the requests the other rules leave undecided; a policy set that takes the first applicable policy never looks beyond a policy ending so. Under the algorithm that favours its effect it decides alone, even though other rules meet errors, provided these have effects and no exception escapes. A default Permit under deny-overrides gives Deny exactly where a rule denies, Permit exactly where none denies and no Deny rule met an error, and Indeterminate otherwise; likewise Deny under permit-overrides. Where no errors arise, a rule whose target and condition ask for more than those of another may be dropped: if the other has the same effect and stands earlier (anywhere, under the overriding algorithms), if its effect prevails under the algorithm, or, under first-applicable, if it merely stands earlier. With errors, or under first-applicable with the covering rule later, this fails.", "quantifier": "every policy, position of the rules, request, attribute finder and custom function", "why_tests_cant": "Which rules of a policy are dead is a claim about all requests and all surrounding rules; a test can only show that a rule matters.", "anchors": ["ndg/xacml/core/rule_combining_alg.py", "ndg/xacml/core/policy_combining_alg.py", "ndg/xacml/core/rule.py: Rule.evaluate", "ndg/xacml/core/policybase.py: PolicyBase.evaluate"]}
{"id": "C108", "title": "Policies can be split by the values of an attribute", "statement": "Rules, policies and policy sets whose target asks, in every alternative of some section, for a text that a request does not have for the attribute in question may be left out, at any depth and under every algorithm, without changing the decision on that request, if no errors arise. So two policies that differ only in what they say about other values decide alike, and a policy whose own target is about other values gives NotApplicable. The values can be read off the request, for the subject if there is no attribute source. With errors this fails (the other matches of such a target are tried all the same), and it fails if only some alternatives ask for other values.", "quantifier": "every policy and policy set of any depth, every selection of the parts left out, every request, attribute, set of values, attribute finder and custom function", "why_tests_cant": "That an index by action or resource keeps all decisions is a claim about all policies, nestings and requests with those values.", "anchors": ["ndg/xacml/core/target.py: Target.match", "ndg/xacml/core/match.py: MatchBase.evaluate", "ndg/xacml/core/rule.py: Rule.evaluate", "ndg/xacml/core/policybase.py: PolicyBase.evaluate", "ndg/xacml/core/rule_combining_alg.py", "ndg/xacml/core/policy_combining_alg.py"]}
{"id": "C109", "title": "Referring to a policy document and including it are the same", "statement": "If a policy set document in which references, at any depth, were replaced by the documents they lead to is accepted, then the document with the references is accepted too, as the same policy and with the same policies known to the finder afterwards; at most more documents are fetched. If both are accepted, they are the same policy. Every accepted document whose references lead to the policies they name can be bundled: there is a document with the fetched ones included that any finder, also one that fetches nothing, reads as the same policy. Not every replacement is accepted (of two references to one policy only the first can be replaced), and a reference that leads to a document that merely has the policy inside cannot be replaced.", "quantifier": "every document, web of documents, base address, finder state, nesting of references and choice of the references replaced", "why_tests_cant": "Nestings of references and choices of what to include are unbounded, and acceptance depends on everything read before; tests have a few documents.", "anchors": ["ndg/xacml/parsers/etree/policysetreader.py: PolicySetReader", "ndg/xacml/finder/policyfinderbase.py", "ndg/xacml/finder/localpolicyfinder.py", "ndg/xacml/finder/urlpolicyfinder.py", "ndg/xacml/parsers/etree/policyreader.py: PolicyReader.parse"]}
{"id": "C110", "title": "A finder after documents that could not be read", "statement": "When reading a document with a policy finder fails, at whatever point, the objects that the finder then holds stand for whole policies and policy sets: those it held before and those added, in order, up to one moment of the reading, each the meaning of a policy or policy set that is in the document or in one that it leads to; no two have one name, and the members of the sets held are held too. Unless it is the nesting of references that stops it, these are exactly: what the children of each policy set before its first child at fault add, what that child leaves in turn, nothing for a policy or a set whose own attributes are wrong, and all the members of a set whose name turns out to be taken. So it is after any number of documents read one after the other, some successfully and some not, the web changing between them and other objects being made: every object held evaluates as one of these policies, nothing held is lost or replaced, and the next document is read exactly if it has a meaning to a finder that holds these. A document that a new finder can read and that uses none of the names taken is read as the same policy, whatever failed before. But a document without references whose failed reading left anything can never again be read with that finder.", "quantifier": "every finder state, document, web, recursion limit and point of failure, and every sequence of readings, failed and successful", "why_tests_cant": "Points of failure and sequences of readings are unbounded, and what a failure leaves shows only in later readings; tests fail in a few places.", "anchors": ["ndg/xacml/parsers/etree/policysetreader.py: PolicySetReader", "ndg/xacml/parsers/etree/policyreader.py: PolicyReader", "ndg/xacml/finder/policyfinderbase.py: PolicyFinderBase", "ndg/xacml/finder/urlpolicyfinder.py: UrlPolicyFinder", "ndg/xacml/finder/localpolicyfinder.py: LocalPolicyFinder"]}
{"id": "C111", "title": "Several policies in place of one", "statement": "A policy and a policy set with the same target and algorithm, of policies without target that share out its rules, decide as follows. Under first-applicable, for consecutive parts, the same, also where errors arise and exceptions escape. Under the overriding algorithms the rules may be dealt out in any way, in any order and to several policies; if no rule meets an error the decision is the same, so grants and refusals may be kept in two policies. Where rules meet errors (and have an effect and let no exception out) the policies permit only what the one permits, deny all it denies and leave undecided exactly what it leaves undecided; under permit-overrides they permit the same. Beyond that errors make a difference: the policies may deny what the one permits (deny-overrides) or leaves Indeterminate (both).", "quantifier": "every list of rules, every way to deal it out to any number of policies, every target, request and algorithm", "why_tests_cant": "The ways to deal out rules and their outcomes are unbounded; tests compare a few.", "anchors": ["ndg/xacml/core/rule_combining_alg.py", "ndg/xacml/core/policy_combining_alg.py", "ndg/xacml/core/policybase.py: PolicyBase.evaluate"]}
{"id": "C112", "title": "The overriding algorithms by order", "statement": "A deny-overrides policy is the first-applicable policy with its Deny rules moved before its Permit rules, and a permit-overrides policy the one with its Permit rules first: for every request on which no rule meets an error the decisions are the same. With errors (all rules having an effect, no exception escaping) whatever the first-applicable policy decides, Permit, Deny or NotApplicable, the overriding one decides too, and both give NotApplicable for the same requests; but the overriding one may decide where the other is Indeterminate. With the rules in the other order this is not so. Policies in a set may be ordered likewise: if each denies or does not apply, or permits or does not apply, deny-overrides is first-applicable with the former first and permit-overrides with the latter first.", "quantifier": "every list of rules, target, request, attribute source and custom function", "why_tests_cant": "The lists of rules and their outcomes are unbounded; tests compare a few.", "anchors": ["ndg/xacml/core/rule_combining_alg.py", "ndg/xacml/core/rule.py: Rule.evaluate", "ndg/xacml/core/policybase.py: PolicyBase.evaluate"]}
