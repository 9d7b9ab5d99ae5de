# Formal model of kodemore/jsoned in Rocq (Coq 8.16.1)

Build: `cd rocq && coq_makefile -f _CoqProject -o Makefile && make -j4`.
Properties: `properties.jsonl`. Status of each: `MANIFEST.json`. Wrong programs tried against the theorems: `seeded/LOG.jsonl`.

## 1. Layout (rocq/theories)

Models (definitions only, each citing file and lines of /repo):

| file | models |
|---|---|
| `PyBase.v` | Python strings (lists of code points), exceptions as values, dicts as ordered association lists, the `str` methods used |
| `PyVal.v` | runtime values used as JSON instances: None, bool, int, float, Decimal, str, list, dict; `==`, `<`, `len`, `%` |
| `Errors.v` | `errors/`: construction and rendering of `ValidationError`, including `str.format` |
| `Validators.v` | all classes of `validators/` except the format functions, over an arbitrary graph of schema nodes |
| `Keywords.v` | all 35 assertion keywords of `keywords/`, `can_apply_keyword`, `LazyValidator`, `JsonSchema.validate` |
| `Memory.v` | the same with `LazyValidator` as a mutable object (tables kept between calls and across exceptions) |
| `Regex.v` | the part of `re` the package uses: backtracking matcher with captures |
| `Pointer.v` | `json_pointer.py` |
| `Iso.v`, `Formats.v` | `iso_datetime.py`, `validators/format_validators.py`, `string_format.py` |
| `StdText.v` | the parsers of the standard library that format tests call: `IPv4Address`, `IPv6Address`, `UUID`, `b64decode`, `Decimal`, of texts |
| `Threads.v` | several threads in `JsonSchema.validate`: the shared attributes and dictionaries of `LazyValidator` and `ObjectValidator`, one read or write at a time, any interleaving |
| `LoadThreads.v` | several threads in `JsonSchema.value`, `load` and `query`: the functions of `Doc.v` as programs of single reads and writes of nodes, documents, anchors and the store, any interleaving |
| `Uri.v` | `uri.py` and the parts of rfc3986 1.5 it calls |
| `Store.v` | `json_store.py`, `uri_loader.py`, `uri_resolver.py`, `functools.lru_cache` |
| `Compare.v` | `JsonType.__eq__`, `__lt__`, `__le__`, `__gt__`, `__ge__`, `__bool__` between two nodes, with the overrides of numbers and booleans, and the list and dict comparisons of the standard library they call |
| `Arrays.v` | `JsonArray` as a mutable sequence: index, slice, `in`, assignment, deletion, with the parts of Python's `list` it calls |
| `Numbers.v`, `Heap.v` | `types/`: `JsonNumber`; nodes with parent links, wrapping, edits, paths |
| `Doc.v` | `json_core.py` without the validator (`load`, `query`, `_process_node`), `$ref`, `$anchor`, `$id`, against the store |
| `Session.v` | the `lru_cache` in front of `JsonSchema.query`: sessions of queries, changes and followed references |
| `RefCache.v` | the caches on `JsonReference.fragment` and `_ref_value`, in histories of reads and edits |
| `PointerObj.v` | `JsonPointer` objects, the lists they hold and the caller's lists |
| `SchemaEdits.v` | calls of `validate` interleaved with edits of the schema, over the validators of `Memory.v` |
| `FormatSession.v` | calls of `validate` interleaved with `StringFormat[name] = test`, over the validators of `Memory.v` |
| `ManySchemas.v` | several schema objects in one process, made, called and with formats registered in any order |
| `RefOperand.v` | schemas with a single keyword whose operand is a reference |
| `SchemaError.v` | `errors/schema_parse_error.py` and where the keywords raise it: for which object, its path and its text |
| `LoadError.v` | `errors/json_load_error.py` and opening a file in a tree of directories |
| `UriCompare.v` | `==`, `in` and hashing of URIs and authorities against other values |
| `NonFinite.v` | the number keywords, `type`, `enum`, `const` and the operators of `JsonNumber` on NaN and the infinities |
| `Standard.v` | none of the code: the meaning of schemas after JSON Schema 2020-12 Core and Validation |
| `VocStore.v` | `JsonStore.load` with a vocabulary, `DefaultLoader.load_file`'s result |
| `ObjectMethods.v` | the methods `JsonObject` inherits from `MutableMapping` |
| `Ident.v` | `repr` of nodes, UTF-8, `JsonSchema.id` |
| `ErrorText.v` | the text (`str`) and the code of a `ValidationError` |
| `Validate.v` | what the validators see of a loaded document: joins `Doc.v` with `Keywords.v` |
| `Live.v` | validation that loads the documents it comes to |
| `Imports.v` | Python's import system, and the top-level statements of all 74 modules (table generated from the sources by a script; the table is what is compiled) |

Specifications, free of the models' evaluators: `Spec.v` (JSON values and keywords), `FormatSpec.v`, `IsoSpec.v`, `UriSpec.v`, `Claims.v` (accepts, rejects, outcome, paths), the first part of `DocLoad.v`/`DocDocument.v` (what a document declares), the head of `PropsRef.v` (what a document says, read with its references).

Property theorems: `Props*.v`; `*Ex.v` and the ends of the other files hold refutations and the concrete cases that meet the hypotheses, and `Print Assumptions`. Everything else (`*Facts.v`, `Mono.v`, `Master.v`, `DocMono.v`, ...) is lemmas.

## 2. Conventions

* A Python call is a total function into `res A := Ok a | Raise exn | OutOfFuel`. Exceptions are values. `OutOfFuel` means "no answer within this recursion depth" and never counts as acceptance or rejection; "diverges" is `OutOfFuel` for every depth. Monotonicity in the depth is proved (`Mono.v`, `DocMono.v`), so statements of the form "for some depth" have one answer.
* `int` is `Z`, `Decimal` is coefficient * 10^exponent, `float` is its exact dyadic value together with the decimal of its `repr`. NaN and infinities are only in `NonFinite.v`.
* The schema side of validation is an arbitrary graph `view : node -> res nview`, so every theorem about validation covers cyclic schemas.
* What is outside the repository is a parameter, universally quantified in the theorems: Python `re` on user patterns, the format registry, `Decimal(str)`, decimal digits of Unicode, `float()`, `str()` of nodes that are not strings, the authority pattern of rfc3986, the file system, the JSON and YAML parsers, base64/ipaddress/UUID, sha256, `str.isprintable` beyond ASCII.
* A property the code violates keeps its English statement. It gets a `_refuted` theorem (a concrete input, computed by the kernel) and the strongest true version found, named `_partial`, or an exact description of what the code does for all inputs (`_exact`). Its status is "partial".

## 3. Trusted base

* Coq 8.16.1's kernel (including its virtual machine, used by `vm_compute` in examples and refutations).
* `Print Assumptions` says "Closed under the global context" for every property theorem. The verdict also lists `Coq.ssr.ssrunder.*`: module parameters inside Coq's own ssreflect support, loaded by the standard library's tactics; no theorem uses them.
* No axioms, no `Admitted`, no functors or module types, no plugins. Section variables are discharged: they appear as quantifiers in the closed theorems.
* That the models say what the Python does. This was done by reading; the code was not run to obtain or check any result. Once, by mistake, a helper script started with /repo/jsoned as its working directory, so Python imported `jsoned/types/__init__.py` and `json_boolean.py` in place of its own `types` module; the two cache files this left in /repo were deleted, no source file changed, and nothing here rests on it. The points where care is needed:

| part | not modelled, or simplified |
|---|---|
| numbers | NaN and infinities outside `NonFinite.v` (nested in arrays and objects, under other keywords); sign of zero; exponent limits of the decimal context; the 4300 digit limit of `int()` |
| keywords | in Keywords.v an operand that is a number, string or array reached through `$ref` gives `EUnmodelled` (objects and booleans through `$ref` are modelled); RefOperand.v has these, for schemas with a single keyword; keyword operands hold their text, `str()` of other nodes is a parameter |
| validators | `==` between a Decimal and a float is by exact value; user `re` patterns are a parameter |
| errors | the message text is built from the error's attributes (`ErrorText.v`); the operands of `enum` and `const` and a value rejected by `false` are not recorded in an error, so their `str` is a parameter of the text; a field inside a path that does more with an argument than name it (`{path:9}`, `{path.upper}`, `{path[0]}`) gives `EUnmodelled` (all ways in which reading a field fails are modelled) |
| memory | threads are in `Threads.v`, with the keywords of `DRAFT_2020_12_VOCABULARY` on a document that is loaded, and in `LoadThreads.v`, for loading and querying; threads that load and validate at once, and the RuntimeError of a dictionary that changes size while it is iterated, are not modelled; a single operation on a dictionary or attribute is not interrupted (CPython's lock) |
| regular expressions | only the constructs the package's own patterns use; case folding as in CPython for ASCII letters |
| formats | `re.compile` is a parameter; base64, ipaddress, UUID and `Decimal` are parameters up to C93 and written from CPython 3.11 (64 bits) in C94-C98; instances that are already `date`/`datetime`/... objects are not JSON values |
| URIs | rfc3986 is not in the repository: splitting, normalisers and the absolute-URI test are written from its published source; the authority pattern is a parameter (C53_absolute and C55 assume of it what `auth_ok` says) |
| store | POSIX paths; `lru_cache` is not re-entered; opening a file (`LoadError.v`) without symbolic links, permissions and limits on the length of names |
| nodes | member names are strings; the value assigned to a slice of an array is given as what iterating over it yields |
| documents | the caches on `fragment` and `_ref_value` are modelled in `RefCache.v` and the cache on `query` in `Session.v`, each alone; the other theorems speak of the call behind it; all keywords share one store |
| validation with loading | when validation comes to a document that is not loaded, `Live.v` loads it and starts validation again, the code goes on (what was read before reads the same afterwards, C80) |
| identifiers | `repr` of strings, numbers and lists, and UTF-8, are written from the standard library; sha256 gives some lower-case hexadecimal text; the dots Python prints for a container inside itself are left out |
| imports | bodies of functions and classes are not run; third-party modules are assumed installed |

## 4. How each property is proved

* C01-C03 pointers: the four functions on code points, the pattern through `Regex.v`; induction on tokens; acceptance is equivalent to a short predicate.
* C04-C13, C28 single keywords: a schema with one keyword accepts iff the keyword's `demands` (Spec.v) hold. C07 and C09 are false of the code (binary float against Decimal; an exclusive bound equal to 1).
* C14-C26, C29, C32: from `Master.v`: a schema object accepts iff it compiles and every keyword gets what it demands, by induction on the depth with monotonicity, for all graphs. C21, C23, C24 are false in one case each.
* C27, C31: order of the vocabulary and of the members; permutations at every depth.
* C30: refinement of the mutable validator to the pure one, for all histories of calls, failing ones included.
* C33-C36: which paths and exceptions can come out, by induction on runs; totality for schemas guarded by `type` (cycles allowed).
* C37-C41: heap invariants, kept by all histories of edits.
* C42, C43: rational order; rounding to 28 digits half even.
* C44-C50: big-step lemmas about runs of the document operations (`ev`, `Runs`), induction on the document's value; `loaded` relates heap and value after loading. The general failure of C49 (`PropsRetry.v`): the walk over a document that is not loaded comes to a reference into it without changing anything, which starts the same load in the same state with less fuel, so no amount of fuel is enough.
* C51, C52: refinement of the store to a map, for all histories. C57, C58, C67: path join; invariant of the LRU cache.
* C53-C56, C66: reading of the RFC 3986 pattern; normalisers.
* C59-C64: patterns transcribed, then proved equivalent to declarative grammars for every string.
* C73-C77: the same for the boolean, uri and url formats, then the `format` keyword end to end with the built-in table.
* C65, C68: induction on the depth of the interpreter; the table is finite, so reachable interpreter states are enumerated by computation and proved closed.
* C69-C72: two related graphs of schema nodes validate alike (`Parametric.v`, a bisimulation by induction on the depth); a loaded document is related to its JSON value read with its references (`PropsValidate.v`).

* C78-C80, C82, C85: an invariant on worlds (`DocLibrary.v`, `state`: every document known by a ghost map is unloaded as opened or loaded as its value says, and the store agrees with the library), kept by every call, with the result of every call known (`DocReading.v`); what documents say is an inductive relation on JSON values (`means`, `leads`). Failing orders are concrete runs; endless recursion by induction on the depth. The order that makes C78 fail is also a theorem for every pair of documents (`PropsLoadAfter.v`), by induction on the walk to the first keyword; so is the order that makes C82 fail (`PropsEndless.v`), by induction on the fuel.
* C81: a validation that stops at a node which cannot be read yet agrees with one that can read every node (`Interrupt.v`, a simulation by induction on the depth); each stop loads a document of the library, so there are finitely many; in every state a node is read as the documents say or stops (`PropsLive.v`).
* C83: two runs with loaders that agree off the store are equal, step by step.
* C87: by induction on the depth of the run: which keyword raised, on what, and why its demand (Spec.v) fails (`PropsBlame.v`).
* C88: the first bad object stops the load (induction on the document), and a document without one is `fit` (`PropsIds.v`).
* C89: the plain comparison of C38 carried to schemas read from their JSON value by parametricity, then induction on the members (`PropsEnum.v`).
* C90: invariant of the cache over all sessions: every entry is an answer some earlier call computed (`PropsSession.v`).
* C91-C93: the record of a loaded document is left alone by every call (induction on the depth); `repr` and UTF-8 are prefix-free codes, so the printed form of a value without strings determines it (`IdentFacts.v`, `PropsIdent.v`).
* C94-C98: the parsers proved equivalent to grammars, for every text (`PropsStd.v`, `PropsStdChars.v`); the base64 decoder by an invariant of its state machine.
* C99: rely and guarantee. Every write of a thread keeps an invariant (each table holds a stage of what loading alone would put there) and only adds; each thread's remaining program is shown to come to the result of the call made alone from every state that grows from the present one. Then induction on the schedule (`ThreadFacts.v`, `PropsThreads.v`). With `patternProperties`: from any state in which the validators the calls come to are loaded and hold what their keywords make, a call only reads, so the interleaving does not matter (`PropsThreadsLoaded.v`).
* C100: the text of an error as a function (`ErrorText.v`), related to an inductive reading of templates; the place cannot swallow the sentence after it, since no template closes a brace before opening one. With C87, every rejection's code and sentence are those of one keyword with its operand (`PropsErrorText.v`).
* C101: `LoadThreads.v` repeats `Doc.v` as a free monad over reads and writes; `LoadThreadFacts.v` proves that a thread run without interruption does exactly what `Doc.v` says. An invariant (nodes as at first, flag, identifier and store entry only ever the document's own) that every step of every thread keeps, and from which each thread comes to one outcome; induction on the schedule. The recursion is proved for every depth from one reachable state (`PropsLoadThreads.v`).
* C102-C104: the verdict of a comparison (equal, different, or TypeError at the first place where a number or boolean meets something else) by induction on the left value, with fuel bounded by its height; the laws of the order by induction on the kind of the values (`PropsCompare.v`).
* C105: induction on the history of calls against a relation that says what Python's lists do; slices as arithmetic progressions within bounds, related to CPython's count of positions; assigning to and deleting slices as CPython moves the elements, against what stays and what is put where (`PropsArrays.v`).
* C106: loading leaves what has neither references nor anchors as it was wrapped (added to the induction behind C44-C50), so the same induction runs a second time for the document registered under the nested id (`PropsNested.v`). One counterexample is computed; the general failure (`PropsRetry.v`) follows the walk to the first reference node, whose processing raises once it has been read.
* C107: the reading functions once more with the two caches (`RefCache.v`), related to those of `Doc.v` by an invariant (what is remembered is what would be read now) as long as nothing is edited, and a second one (what is remembered stays) when something is (`PropsRefCache.v`).
* C108: pointers and the caller's lists in one memory (`PointerObj.v`), refined by a view in which each pointer has its own tokens or names the list it shares; the statements about histories follow from the view (`PropsPointerObj.v`).
* C109: calls of `validate` interleaved with edits that replace the nodes under the validators of `Memory.v` (`SchemaEdits.v`). The invariant of C30 survives an edit that leaves unchanged what begun validators were built from; when all are built, the run of a call is shown not to read the schema at all (`PropsSchemaEdits.v`, concrete schemas in `PropsSchemaEditsEx.v`).
* C110: the inherited methods written from CPython's `_collections_abc.py` over the object of `Heap.v` (`ObjectMethods.v`); each call is compared with a relation that says what a dict does, and a history by induction (`PropsObjectMethods.v`).
* C111: the store of `Store.v` with schemas that remember value and vocabulary, each call with its own file outcome (`VocStore.v`); the answer is read off the log of earlier calls by induction (`PropsVocStore.v`), and that a schema without vocabulary accepts everything follows from C45's untouched load.
* C112: `Standard.v` writes the meaning of a schema down after the text of the specification, as a predicate on values by recursion on the schema, without any definition of the model of the code; `PropsStandard.v` shows keyword by keyword that what the compiled validators demand (Spec.v, Master.v) is the clause of the standard, and concludes by induction on the size of the schema, with the total outcome (C35) for the negative clauses, and through C71 for loaded documents. `supported` lists the conditions under which each keyword agrees; the schemas outside it on which the code differs are the witnesses of the refutation.
* C113: `unfolds` (PropsInline.v) is the replacement, as a relation between values of the document and plain values. A derivation of it gives a finite table of what the nodes of the loaded document show and what the replaced value shows; the two differ only in whether an object is reached through a reference, and Parametric.v shows (`validate_alike`) that this matters only where names are listed, which `neat` (names are given as texts) excludes.
* C114: Standard.v gains the meaning of `$ref` (the operand is the schema referred to); `resolved` (PropsRefStandard.v) puts the referred schema in place of each text. Equal operand meanings give equal schema meanings (`object_alike`), and a reference alone in its object means what its target means (`reference_alone`), so the resolved document and the inlined one of C113 have the same meaning (`same_meaning`, by induction on the unfolding); C113 and C112 do the rest.
* C115: UriCompare.v models `==` between a Uri, an Authority, a text and other values (with the reflected call for texts), `hash`, dict look-up for an arbitrary hash of texts and `in` on lists. Equality is shown to be equality of the seven parts the API exposes; `C115_own` ties it to C55; `C115_keys_partial` is by induction over the entries.
* C116: PropsFormatOthers.v holds a table with sixteen rows (null, boolean, whole number, array, object) written down by hand, and a seventeenth for `decimal`; `C116_exact` proves the model's tests agree with it for every value, given what Python's `str` does to null, booleans, integers and the first character of lists and dicts. `C116_schema` and `C116_fails` carry it to schemas through C77.
* C117: NonFinite.v extends the numbers by NaN (quiet and signaling) and the infinities and models the number keywords and the operators of `JsonNumber` on them; the order with infinities (`below`, `same`) and what each keyword demands are written down independently. `C117_exact` gives the outcome of each keyword on each number, `C117_schema` that of a list of keywords; `C117_conservative` and `C117_operators_conservative` show that on finite numbers this is the model of Validators.v and Numbers.v.
* C118: PropsRecursive.v. The meaning of a recursive document is a `reading`: an assignment of meanings to its schemas that satisfies the equation of Standard.v at each object, with the object referred to as the operand of `$ref`. `guarded` asks for a rank that falls along references and along keywords that stay on the same value. Then there is a reading (`C118_exists`, as the limit of finite approximations) and only one (`C118_one`, by induction on the value, then on the rank). The view of the document that follows references is bisimilar to what the package sees, and the agreement of C112, which is stated for any view of the schemas, gives `C118_partial`.
* C119: RefOperand.v, PropsRefOperand.v. An operand is a plain value or a reference, to any depth. The model asks of it what the keyword classes ask: its type, its value, `int()`, `str()`, comparing, iterating; a reference has no `__iter__`, so Python indexes it. `C119_written`: for an operand written out this is Keywords.v. The exact outcome is proved for each group of keywords; that iterating over a reference never completes is a pigeonhole argument, also carried out in the model of loaded documents of Doc.v (`C119_loaded`).
* C120: SchemaError.v, SchemaErrorFacts.v, PropsSchemaError.v. The evaluator is run once more with the object at fault carried along, and the error's path and text computed for that object as the code does. Proved: telling the place changes nothing else of the outcome (a relation kept by every validator); the object told is below the root (the simulation of Interrupt.v); in any document built by new documents, assignments and deletions its path is where the document's JSON value has an object with a malformed keyword, and the text is the stated one.
* C121: LoadError.v, PropsLoadError.v. Directories are a finite tree; opening a file follows the parts of the name as POSIX does, and is proved equivalent to a relation (`leads`) that says where a path goes (`open_exact`, induction on the parts). `load_told` is `load_uri` of Store.v with the failures told apart (`C121_same`); the report is then a case distinction.
* C122: PropsMapping.v. The table after a sequence of `map` calls is a fold of dictionary assignments; an invariant of that fold (the earliest covering mapping stays in front of all others that cover the URI, with its latest target), by induction from the last call; then C57 for the file name.
* C123: FormatSession.v, PropsFormatSession.v. Sessions of calls and registrations over the heap of lazily built validators of Memory.v. Building asks the registry only whether a name is in it, and names are never taken away, so tables built or half built before a registration still satisfy the invariant of Memory.v after it (`more_good`); induction on the session. Which test a name means is given by the relation `last_registered`.
* C124: PropsFormatUse.v. `unused` is stated over the nodes `within` the document (elements and member values, through references). The document is cut to these nodes (a view on the subset type), which changes no outcome (`validate_related` of Parametric.v); on the cut document no table ever holds the format, so building and running agree (induction on the stack and on the vocabulary). Sessions follow with C123.
* C125: ManySchemas.v, PropsManySchemas.v. One heap holds the validators of all schema objects. Invariant: every table is that of its node, or begun and given up (Memory.v), and the i-th root stands for the i-th document; it is kept by construction, calls and registrations (induction on the steps). `documents` and `registered` give the documents and formats without the heap.
* C84: concrete runs, and in general (PropsKeywordData.v): what Python prints for a node that is not a text (`shape`, proved of the model's `repr`) is a URI without scheme and authority, and resolved against an ordinary identifier it keeps its brace, which no absolute URI has; the induction over the document is that of C88. C85 in general is a case of C49_partial. C86: from the verdicts of comparison (C38).

## 5. What was found

Each is a theorem about the model (names in MANIFEST.json): the package cannot be imported the first time (C65); 0.1 is rejected by `const: 0.1` (C07); an exclusive bound of 1 makes the inclusive bound strict (C09); `if` without `else` raises KeyError (C21); tuple `items` loops on short arrays (C23); `maxContains: 0` is ignored (C24); `uniqueItems` and array errors report wrong paths (C33); braces in member names break error construction (C34, C36); keywords raise TypeError on instances of other types (C35); comparing wrapped numbers or booleans with other kinds raises TypeError (C38); `/` and negative indices in pointers (C44); `#/name` hidden by an anchor of that name (C46); references in arrays are not followed, and at the root recurse for ever (C47); a failed load cannot be retried (C49); URI resolution loses a character (C53); `urn:x` prints as `urn://x` (C55); mapped files escape their directory (C57); resolver registrations are ignored for cached URIs (C58); final line feeds accepted by formats (C59-C64, C74, C75); the url format accepts `http://10.0.0.1/@example.com` (C76); the uri format accepts commas in the scheme (C74); loading can fail because of what was loaded before (C78); a reference reads differently before its target is loaded (C80); two documents that refer to each other recurse without end in one order (C82); a property or constant member named `id` breaks loading (C84); relative references ignore the document's id (C85); indexing a reference to an array raises KeyError (C86); a root `$id` that is not an absolute URI stops loading (C88); `enum` with an array or object member raises on most instances (C89); a query repeated after a change returns the node that was there before (C90); the default identifier of a document depends on whether it was loaded (C91), is shared by different documents (C92) and cannot be computed with a lone surrogate in a string (C93); the uuid format accepts hyphens anywhere, underscores and spaces (C96); the byte format skips characters outside the alphabet (C97); two threads that use a schema with `patternProperties` for the first time can see a wrong value accepted, or a TypeError (C99); a member named `{{a}}` is reported as `{a}`, and an exclusive bound as an inclusive one (C100); a thread that uses a document with a `$ref` while another thread is loading it recurses without end or gets an AttributeError, and with an `$anchor` a KeyError (C101); `null == 1` is False and `1 == null` a TypeError between wrapped values (C102); the wrapped float 1e23 is not below the int 99999999999999999999999, though the float is, and `False < 1` answers while `1 > False` raises (C103); a value assigned to an element of an array is read back unwrapped, `"a" in JsonArray([1, "a"])` raises TypeError, and the elements of a slice report their old place (C105); a nested schema that contains a reference raises AttributeError when used through its own `$id`, and its anchors are not found there (C106); once a reference to an object has been read it keeps the members its target had then, whatever is edited later (C107); a pointer made by `from_list` changes when the list does, and two pointers with the same tokens are not equal (C108); a schema edited after it has validated a value still judges by the old keywords (C109); `popitem` takes the first member of an object, `setdefault` returns the plain value and deleting an absent member is no error (C110); a document first loaded without vocabulary keeps none: a later load that names one gets a schema that accepts every value (C111); schemas do not have the meaning of JSON Schema 2020-12 on twelve counts, from patterns that skip declared names to `unevaluatedProperties` that does not look into applicators; within `supported` they do (C112); C114: a keyword beside `$ref` gives way to the target's keyword of the same name, a `$ref` inside an array (`allOf: [{$ref: ..}]`) is ignored, `#/` leads to the whole document rather than the member named "", and keywords on the two sides of a reference (`if` here, `then` there) are combined. Each makes outcomes differ from the standard (`C114_refuted`). (C114); C115: texts equal to one Uri need not be equal to each other; a text equal to a Uri has another hash, so it finds nothing entered under the Uri; comparing a Uri with a text whose authority cannot be read raises AttributeError, and with anything else TypeError, also inside `in`; an Authority cannot be hashed (`C115_refuted`, `C115_fails`, `C115_text_key`). (C115); C116: no built-in format accepts null or an object; `email` and `hostname` raise TypeError on everything but texts and `boolean` on arrays and objects; the number 20200229 is a `date`, true is an `ip-address` (`C116_exact`, `C116_refuted`, `C116_fails`). (C116); a NaN under any `minimum` or `maximum`, every value under a bound that is NaN, and an infinity under `multipleOf` end in decimal.InvalidOperation instead of a ValidationError, and so do the order comparisons of wrapped NaNs (`C117_refuted`, `C117_nan_bound`, `C117_infinite_multiple`, `C117_compare`). (C117); a list described by a definition that refers to itself is not checked at all when it is reached through `allOf: [{$ref: ..}]` (`C118_refuted`) (C118); an operand given by a reference works only for some keywords: the size bounds and `multipleOf` raise TypeError, lists of schemas or names KeyError or TypeError, `type` is refused as malformed, `pattern` and `format` use the text `JsonReference(...)`, and a boolean `const` rejects the value it names (`C119_refuted`) (C119); a SchemaParseError for a value of the wrong kind never says which keyword is wrong: the second half of the message is a statement of its own (`C120_refuted`); through a reference it tells the place of the reference, not of the malformed schema (`C120_reference_refuted`) (C120); a missing file below another file (`a.json/b.json`), or a directory in its place, raises NotADirectoryError or IsADirectoryError, not JsonLoadError (`C121_refuted`); after a resolver is replaced, JsonLoadError still tells that the old resolver's file is missing although the new one's is there (`C121_stale_refuted`) (C121); of two mappings that cover a URI the one made first is used, not the longer one (`C122_refuted`); a mapping also covers URIs that go on in the middle of a segment (`C122_segment_refuted`); a mapping to the empty text hides later ones (`C122_empty_refuted`) (C122).
