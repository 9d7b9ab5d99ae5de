{
 "claims": [
  {
   "property": "C01",
   "status": "proved",
   "theorems": [
    "C01_tokens_survive"
   ],
   "note": ""
  },
  {
   "property": "C02",
   "status": "proved",
   "theorems": [
    "C02_accepts",
    "C02_rejects",
    "C02_tokens"
   ],
   "note": "The regular expression itself is modelled (Regex.v: backtracking matcher listing all readings in the order re tries them)."
  },
  {
   "property": "C03",
   "status": "proved",
   "theorems": [
    "C03_text_survives",
    "C03_empty"
   ],
   "note": ""
  },
  {
   "property": "C04",
   "status": "proved",
   "theorems": [
    "C04_type"
   ],
   "note": ""
  },
  {
   "property": "C05",
   "status": "proved",
   "theorems": [
    "C05_enum"
   ],
   "note": ""
  },
  {
   "property": "C06",
   "status": "proved",
   "theorems": [
    "C06_const"
   ],
   "note": ""
  },
  {
   "property": "C07",
   "status": "partial",
   "theorems": [
    "C07_number_accepts_itself_refuted",
    "C07_number_accepts_itself_partial",
    "C07_exact_carriers",
    "C07_float_const"
   ],
   "note": "REFUTED as stated: floats are compared exactly with the Decimal of their text, so 0.1 is rejected by const/maximum/enum 0.1. Proved for ints, Decimals and exactly representable floats; exact criterion for floats."
  },
  {
   "property": "C08",
   "status": "proved",
   "theorems": [
    "C08_maximum",
    "C08_minimum",
    "C08_exclusive_maximum",
    "C08_exclusive_minimum"
   ],
   "note": ""
  },
  {
   "property": "C09",
   "status": "partial",
   "theorems": [
    "C09_numeric_exclusive_refuted",
    "C09_both_maxima",
    "C09_both_minima",
    "C09_both_bounds_partial"
   ],
   "note": "REFUTED as stated: an exclusive bound equal to 1 makes the inclusive bound strict. Exact behaviour and the property for exclusive bounds other than 1 are proved."
  },
  {
   "property": "C10",
   "status": "proved",
   "theorems": [
    "C10_multiple_of"
   ],
   "note": ""
  },
  {
   "property": "C100",
   "status": "partial",
   "theorems": [
    "C100_text_partial",
    "C100_text_exact",
    "C100_rejection_exact",
    "C100_outcome",
    "C100_always_text",
    "C100_text_refuted",
    "C100_bound_refuted"
   ],
   "note": "REFUTED as stated: braces in member names are read as part of the template (a member {{a}} is reported as {a}, a member {expected_types} as the list of types), and an exclusive bound is reported as an inclusive one, which the value meets. C100_rejection_exact: for every rejection the code and the sentence are those of one keyword of one schema held against the value, with its operand, and the path is rendered as a template; C100_text_partial: the whole text, for paths without braces."
  },
  {
   "property": "C101",
   "status": "partial",
   "theorems": [
    "C101_threads_partial",
    "C101_alone",
    "C101_every_thread_ends",
    "C101_threads_refuted",
    "C101_recursion_refuted"
   ],
   "note": "REFUTED as stated: with a $ref in the document, a thread that comes while another one is loading it recurses for ever (C101_recursion_refuted, for every depth of calls), or fails with AttributeError; with an $anchor it fails with KeyError (C101_threads_refuted). C101_threads_partial: for documents whose objects have no such members, apart from an identifier of the document itself, every interleaving of any number of threads gives each its outcome alone and leaves the nodes as they are. C101_every_thread_ends: a thread that keeps getting turns is done at some point, for every document and depth of calls. C101_alone: a thread that is not interrupted does what the model of the other claims says."
  },
  {
   "property": "C102",
   "status": "partial",
   "theorems": [
    "C102_exact",
    "C102_equivalence",
    "C102_total_partial",
    "C102_refuted"
   ],
   "note": "REFUTED as stated: between wrapped values null == 1 is False but 1 == null raises TypeError (C102_refuted). C102_exact: == is True exactly for equal JSON values, raises TypeError exactly when a number or boolean of the left value meets another kind before any difference is found, and is False otherwise. C102_equivalence: as far as it says True it is an equivalence. C102_total_partial: it answers when numbers meet numbers and booleans booleans. References inside the values are left out."
  },
  {
   "property": "C103",
   "status": "partial",
   "theorems": [
    "C103_exact",
    "C103_total_partial",
    "C103_transitive_partial",
    "C103_refuted"
   ],
   "note": "REFUTED as stated: a float is ordered by its text, so the wrapped 1e23 is not below the int 99999999999999999999999 while the plain one is; and False < 1 answers while 1 > False raises TypeError (C103_refuted). C103_exact: the four comparisons decided for every two values, including when they fail. C103_total_partial and C103_transitive_partial: on numbers, strings, booleans and arrays of one of these, exactly one of <, ==, > holds, a < b iff b > a, and < and <= are transitive."
  },
  {
   "property": "C104",
   "status": "proved",
   "theorems": [
    "C104_truth"
   ],
   "note": "References are left out."
  },
  {
   "property": "C105",
   "status": "partial",
   "theorems": [
    "C105_list_exact",
    "C105_wrapped_partial",
    "C105_slice_exact",
    "C105_contains_exact",
    "C105_contains_partial",
    "C105_contains_assigned",
    "C105_contains_node",
    "C105_contains_itself",
    "C105_refuted"
   ],
   "note": "REFUTED as stated: an assigned value is stored and read back unwrapped, looking for a string behind a number raises TypeError, and the elements of a slice keep their old place (C105_refuted). C105_list_exact: in every history the values are those of a list, elements being wrapped or, where assigned, plain. C105_wrapped_partial: without assigned plain values every element read is wrapped. C105_slice_exact: a slice is a wrapped array of what Python's slice picks. C105_contains_exact: the outcome of `in` for every plain value, with the TypeErrors. The value assigned to a slice is given as what iterating over it yields."
  },
  {
   "property": "C106",
   "status": "partial",
   "theorems": [
    "C106_partial",
    "C106_attr",
    "C106_refuted"
   ],
   "note": "REFUTED as stated: a nested schema with a reference to an object inside answers every query made through its id with AttributeError, and its anchors are known only to the outer document (C106_refuted; C106_attr: every query, for every document in which the first keyword inside the nested schema is such a reference). C106_partial: without references and anchors inside (arrays aside), loading it through the store works, changes no node, and queries give what is written there; but afterwards the store holds another, unloaded document under the URI."
  },
  {
   "property": "C107",
   "status": "partial",
   "theorems": [
    "C107_partial",
    "C107_stale",
    "C107_refuted"
   ],
   "note": "REFUTED as stated: a member set in the target after the reference was read is not seen through it, and a target replaced by a string is still reported as an object (C107_refuted). C107_partial: with all edits before the first read every read gives what the documents give without the caches. C107_stale: in every history, once a reference to an object has been read it answers with the members of that moment. The cache on query is not in this model (Session.v, C90)."
  },
  {
   "property": "C108",
   "status": "partial",
   "theorems": [
    "C108_exact",
    "C108_partial",
    "C108_shared",
    "C108_equal",
    "C108_refuted"
   ],
   "note": "REFUTED as stated: from_list keeps the caller's list, so the pointer changes with it, and equality is identity (C108_refuted). C108_exact: every history, with what each pointer answers. C108_partial: for pointers whose list is not changed later there is a fixed sequence of tokens that gives all answers, that of the text, list or slice it was made of. C108_shared: a pointer made of a list answers as the list is at the time. C108_equal: only the same object is equal. Access to the private _nodes is outside the model."
  },
  {
   "property": "C109",
   "status": "partial",
   "theorems": [
    "C109_partial",
    "C109_before",
    "C109_stale",
    "C109_refuted"
   ],
   "note": "REFUTED as stated: minimum raised from 3 to 10 after a call, and 5 is still accepted (C109_refuted). C109_partial: in every history whose edits leave unchanged the nodes that calls have used, each outcome is that of the schema as it is. C109_before: so for all edits before the first call. C109_stale: once every validator is built, no edit of any kind changes any later outcome, for schemas whose enum and const operands are no arrays or objects."
  },
  {
   "property": "C11",
   "status": "proved",
   "theorems": [
    "C11_counts"
   ],
   "note": ""
  },
  {
   "property": "C110",
   "status": "partial",
   "theorems": [
    "C110_exact",
    "C110_partial",
    "C110_refuted"
   ],
   "note": "REFUTED as stated: popitem takes the first member, setdefault returns the plain value it was given, deleting an absent name is silent (C110_refuted). C110_exact: every history, call by call: as a dict, and in exactly these three cases as described. C110_partial: histories without del, popitem and setdefault of a plain value are those of a dict."
  },
  {
   "property": "C111",
   "status": "partial",
   "theorems": [
    "C111_exact",
    "C111_text",
    "C111_partial",
    "C111_stale",
    "C111_accepts",
    "C111_refuted"
   ],
   "note": "REFUTED as stated: a document that was loaded without vocabulary before is returned as it is and accepts every value (C111_refuted; C111_stale for every such history, C111_accepts for every document without vocabulary). C111_exact: the answer of every load after every history. C111_partial: when every earlier call for the base URI failed, the schema has the vocabulary asked for and the value of the file."
  },
  {
   "property": "C112",
   "status": "partial",
   "theorems": [
    "C112_partial",
    "C112_document_partial",
    "C112_refuted"
   ],
   "note": "REFUTED as stated: twelve schemas and values on which the code and the standard differ (C112_refuted). C112_partial: for every schema that meets the conditions of `supported` (per keyword, at every depth), every value without whole floats and every vocabulary that starts with type, accepted is valid and rejected is not valid. C112_document_partial: the same for loaded documents, with a definite outcome from some fuel on. Every keyword of the package's VALIDATOR_VOCABULARY is covered (multipleOf with quotients below 10^28; uniqueItems: true on arrays of scalars without booleans beside numbers). prefixItems and $ref are outside `supported`."
  },
  {
   "property": "C113",
   "status": "proved",
   "theorems": [
    "C113_inline"
   ],
   "note": "For every document that can be loaded and has a finite unfolding with names given as texts, the outcome of document_validate is from some fuel on that of schema_validate on the unfolded plain value, whatever str() gives for nodes. Recursive documents have no unfolding; C69 covers them."
  },
  {
   "property": "C114",
   "status": "partial",
   "theorems": [
    "C114_partial",
    "C114_refuted"
   ],
   "note": "REFUTED for keywords beside $ref, references in arrays, \"#/\" and split if/then. C114_partial: where each reference stands alone in an object outside arrays, there are no anchors, and the inlined schema is supported as in C112, outcomes are exactly those of the standard."
  },
  {
   "property": "C115",
   "status": "partial",
   "theorems": [
    "C115_parts",
    "C115_own",
    "C115_transitive_partial",
    "C115_authority",
    "C115_authority_own",
    "C115_in",
    "C115_texts",
    "C115_keys_partial",
    "C115_text_key",
    "C115_fails",
    "C115_refuted"
   ],
   "note": "REFUTED for transitivity through two texts, for texts as keys, and because comparing with unreadable texts and other values raises. Proved: equality is equality of parts, symmetric, transitive unless both ends are texts; dicts keyed by URIs find exactly the entries with the same parts, for every hash function."
  },
  {
   "property": "C116",
   "status": "partial",
   "theorems": [
    "C116_exact",
    "C116_decimal",
    "C116_refuted",
    "C116_schema",
    "C116_fails"
   ],
   "note": "REFUTED: no built-in format lets null or an object pass, and three raise TypeError. Proved: what each of the seventeen says about every null, boolean, whole number, array and object (lists under `decimal` excepted)."
  },
  {
   "property": "C117",
   "status": "partial",
   "theorems": [
    "C117_exact",
    "C117_schema",
    "C117_refuted",
    "C117_nan_bound",
    "C117_infinite_multiple",
    "C117_partial",
    "C117_quiet_nan",
    "C117_conservative",
    "C117_compare",
    "C117_equal",
    "C117_sum",
    "C117_operators_conservative"
   ],
   "note": "REFUTED: a NaN under minimum or maximum, and an infinity under multipleOf, raise decimal.InvalidOperation. Proved: the exact outcome of every number keyword and operator on every number; without NaN and multipleOf the claim holds (C117_partial), and a quiet NaN is refused by multipleOf, const and enum. Identity inside `in` is left out."
  },
  {
   "property": "C118",
   "status": "partial",
   "theorems": [
    "C118_partial",
    "C118_exists",
    "C118_one",
    "C118_refuted"
   ],
   "note": "REFUTED: a reference in an array is not followed, so a recursive definition used through allOf does not apply. C118_partial: where each reference stands alone in an object outside arrays, there are no anchors and all schemas are supported as in C112, outcomes are exactly those of the standard; C118_exists and C118_one: the standard gives such documents exactly one meaning, with references anywhere."
  },
  {
   "property": "C119",
   "status": "partial",
   "theorems": [
    "C119_refuted",
    "C119_partial",
    "C119_written",
    "C119_bounds",
    "C119_sizes",
    "C119_multiples",
    "C119_texts",
    "C119_type",
    "C119_lists",
    "C119_iteration",
    "C119_loaded",
    "C119_enum",
    "C119_const_plain",
    "C119_const_number",
    "C119_const_boolean",
    "C119_contains"
   ],
   "note": "REFUTED: see the witnesses. C119_partial: when the outcome is that of the operand written out, which C119_written ties to the keywords of Keywords.v. The others: the exact outcome for the bounds (floats count for what they are printed as), sizes and multipleOf (TypeError), pattern and format (the text of the reference), type, lists (KeyError or TypeError, for every array), enum, const and the bounds of contains. Modelled for a schema with one keyword; C119_partial takes that a nested schema given by a reference validates as its target, see C72."
  },
  {
   "property": "C12",
   "status": "proved",
   "theorems": [
    "C12_required"
   ],
   "note": ""
  },
  {
   "property": "C120",
   "status": "partial",
   "theorems": [
    "C120_refuted",
    "C120_reference_refuted",
    "C120_report_partial"
   ],
   "note": "REFUTED: the text does not name the keyword or the kinds (C120_refuted), and through a reference the path is that of the reference (C120_reference_refuted). C120_report_partial: in a document without references, after any history of new documents, plain assignments and deletions, the error is reported exactly when validate raises SchemaParseError, its path is that of an object of the document with a malformed keyword, it is the first keyword of the vocabulary that is malformed there (a list of types with an element that is no string aside, whose text is not modelled), and the text is exactly the one stated. Formats and Decimal are taken not to raise SchemaParseError themselves."
  },
  {
   "property": "C121",
   "status": "partial",
   "theorems": [
    "C121_refuted",
    "C121_stale_refuted",
    "C121_report_partial",
    "C121_same",
    "open_exact"
   ],
   "note": "REFUTED: a path through a file fails with NotADirectoryError (C121_refuted), and a file name remembered from a replaced resolver is reported although the present one exists (C121_stale_refuted). C121_report_partial: in every state and on every disk JsonLoadError is raised exactly when nothing is stored under the base URI and a part of the path of the file looked for (remembered, or given by the resolvers) is absent; its uri and text are exact; NotADirectoryError and IsADirectoryError are raised exactly when the path goes through a file or ends at a directory. Resolvers, parsers and JsonSchema are taken not to raise FileNotFoundError themselves; symbolic links, permissions and limits on names are left out."
  },
  {
   "property": "C122",
   "status": "partial",
   "theorems": [
    "C122_refuted",
    "C122_segment_refuted",
    "C122_empty_refuted",
    "C122_used_partial",
    "C122_alone",
    "C122_uncovered"
   ],
   "note": "REFUTED: the first mapping wins over a longer one (C122_refuted), prefixes are compared letter by letter (C122_segment_refuted), an empty target hides later mappings (C122_empty_refuted). C122_used_partial: for every sequence of calls the earliest mapping whose text is a prefix is used, with its latest target; C122_alone: when one mapping alone covers the URI the order does not matter; C122_uncovered: without one, resolve falls back to the path or ValueError."
  },
  {
   "property": "C123",
   "status": "proved",
   "theorems": [
    "C123_effect",
    "C123_current",
    "C123_formats"
   ],
   "note": "C123_effect: after any session the next call equals that of a never used schema object, with each format name meaning the test registered last. C123_current says it of every call in the session; C123_formats gives the registry. The tests are arbitrary functions of the value; a test that itself registers formats or calls validate is not modelled, nor is direct access to the registry's private table."
  },
  {
   "property": "C124",
   "status": "proved",
   "theorems": [
    "C124_session",
    "C124_one"
   ],
   "note": "C124_one: one registration of a name no object of the document has as its format changes no outcome. C124_session: the same for every call in a session with any number of such registrations. A document that has the text as data only (under enum, say, in an object with a member format) counts as using it. Tests that themselves register formats or call validate are not modelled."
  },
  {
   "property": "C125",
   "status": "proved",
   "theorems": [
    "C125_alone",
    "C125_others",
    "C125_unused"
   ],
   "note": "C125_alone: after any steps, validate of the i-th schema object equals the first call in a process whose only schema object is over the i-th document, with the formats registered so far. C125_others: without registrations, the other objects might as well not exist. C125_unused: nor do registrations of formats its document does not use matter. All objects have one vocabulary, and documents that are loaded; loading through a shared store is the subject of C69-C83."
  },
  {
   "property": "C13",
   "status": "proved",
   "theorems": [
    "C13_dependent_required"
   ],
   "note": ""
  },
  {
   "property": "C14",
   "status": "proved",
   "theorems": [
    "C14_dependent_schemas"
   ],
   "note": ""
  },
  {
   "property": "C15",
   "status": "proved",
   "theorems": [
    "C15_members",
    "C15_not_object",
    "C15_first_fault"
   ],
   "note": ""
  },
  {
   "property": "C16",
   "status": "proved",
   "theorems": [
    "C16_property_names"
   ],
   "note": ""
  },
  {
   "property": "C17",
   "status": "proved",
   "theorems": [
    "C17_allOf"
   ],
   "note": ""
  },
  {
   "property": "C18",
   "status": "proved",
   "theorems": [
    "C18_anyOf",
    "C18_anyOf_short_circuit"
   ],
   "note": ""
  },
  {
   "property": "C19",
   "status": "proved",
   "theorems": [
    "C19_oneOf"
   ],
   "note": ""
  },
  {
   "property": "C20",
   "status": "proved",
   "theorems": [
    "C20_not"
   ],
   "note": ""
  },
  {
   "property": "C21",
   "status": "partial",
   "theorems": [
    "C21_missing_else_refuted",
    "C21_if_then_else",
    "C21_missing_then",
    "C21_missing_else",
    "C21_no_if"
   ],
   "note": "REFUTED for a missing else: an instance rejected by `if` raises KeyError('else'). All other cases are proved, and the exact outcome of a missing else."
  },
  {
   "property": "C22",
   "status": "proved",
   "theorems": [
    "C22_items",
    "C22_items_not_array",
    "C22_tuple_items",
    "C22_prefix_items"
   ],
   "note": ""
  },
  {
   "property": "C23",
   "status": "partial",
   "theorems": [
    "C23_arrays_terminate_refuted",
    "C23_short_array_diverges",
    "C23_arrays_terminate_partial"
   ],
   "note": "REFUTED as stated: {items: [true]} on [] loops for ever. Divergence is characterised, termination is proved for arrays at least as long as the tuple or whose first missing position fails on null."
  },
  {
   "property": "C24",
   "status": "partial",
   "theorems": [
    "C24_max_contains_refuted",
    "C24_contains_exact",
    "C24_contains_partial"
   ],
   "note": "REFUTED for maxContains 0, which is ignored. Exact behaviour and the property for every other maxContains are proved."
  },
  {
   "property": "C25",
   "status": "proved",
   "theorems": [
    "C25_unique",
    "C25_unique_false",
    "C25_python_equality"
   ],
   "note": "Equality is Python's (1 == True), as the statement says 'equal values'; C25_python_equality shows the consequence."
  },
  {
   "property": "C26",
   "status": "proved",
   "theorems": [
    "C26_conjunction",
    "C26_unrecognised"
   ],
   "note": ""
  },
  {
   "property": "C27",
   "status": "partial",
   "theorems": [
    "C27_items_conflict_refuted",
    "C27_not_order_refuted",
    "C27_reordering_never_flips",
    "C27_vocabulary_order_partial",
    "C27_settled_order_partial"
   ],
   "note": "REFUTED as stated (KeyError for items before prefixItems; not/TypeError). Proved: reordering never turns acceptance into rejection; equivalence for vocabularies without not/anyOf/oneOf/if/contains and without items+prefixItems (covers VALIDATOR_VOCABULARY), and for any vocabulary when both orders settle."
  },
  {
   "property": "C28",
   "status": "proved",
   "theorems": [
    "C28_malformed_operand"
   ],
   "note": ""
  },
  {
   "property": "C29",
   "status": "proved",
   "theorems": [
    "C29_boolean_schemas"
   ],
   "note": ""
  },
  {
   "property": "C30",
   "status": "proved",
   "theorems": [
    "C30_no_memory",
    "C30_stateless"
   ],
   "note": "Stateful model of LazyValidator (Memory.v): half-built tables survive exceptions, sub-validators are mutable objects. Any history, any remaining stack depth per call. Document loading ($ref, load()) is not part of this model: see C45/C49."
  },
  {
   "property": "C31",
   "status": "partial",
   "theorems": [
    "C31_member_order_refuted",
    "C31_member_order_never_flips",
    "C31_member_order_partial",
    "C31_settled_partial"
   ],
   "note": "REFUTED as stated under not (TypeError vs ValidationError first). Proved for permutations at every depth: never flips acceptance to rejection; equivalence for vocabularies that only require; equivalence whenever both settle."
  },
  {
   "property": "C32",
   "status": "proved",
   "theorems": [
    "C32_one_outcome",
    "C32_more_stack",
    "C32_accept_or_reject"
   ],
   "note": ""
  },
  {
   "property": "C33",
   "status": "partial",
   "theorems": [
    "C33_unique_path_refuted",
    "C33_array_path_refuted",
    "C33_every_path_partial",
    "C33_error_path_partial"
   ],
   "note": "REFUTED as stated: uniqueItems glues the index to the path without a dot, items/prefixItems on a non-array drop the path. Proved: exact list of what a path can be for every schema and vocabulary; and for vocabularies without items, prefixItems, uniqueItems, propertyNames (the shipped one) the path is exactly the names/indices leading to the value that failed."
  },
  {
   "property": "C34",
   "status": "partial",
   "theorems": [
    "C34_validation_error_refuted",
    "C34_names",
    "C34_validation_error_partial"
   ],
   "note": "REFUTED as stated: braces in member names make the constructor of the error raise KeyError/ValueError/IndexError. C34_names: for every list of member names on the way to a member of the wrong type, the exception is a ValidationError if and only if the path is a text that str.format takes. Proved for brace-free member names on well-typed schema graphs (keywords guarded by type, vocabulary starting with type)."
  },
  {
   "property": "C35",
   "status": "partial",
   "theorems": [
    "C35_total_refuted",
    "C35_total_partial"
   ],
   "note": "REFUTED as stated: minLength on a number is a TypeError. Proved: for schema graphs (cycles allowed) whose keywords are guarded by type, every instance with brace-free names (and, under multipleOf, quotients below 10^28; under uniqueItems: true, arrays without arrays or objects inside) is accepted or rejected with a ValidationError, and validation terminates."
  },
  {
   "property": "C36",
   "status": "partial",
   "theorems": [
    "C36_rendering_refuted",
    "C36_path_refuted",
    "C36_rendering_partial",
    "C36_plain_partial"
   ],
   "note": "REFUTED as stated for the two errors built from a positional argument when the path or the shown value contains braces. Proved for all other error kinds, and for these two at brace-free paths and values."
  },
  {
   "property": "C37",
   "status": "proved",
   "theorems": [
    "C37_shape",
    "C37_equal"
   ],
   "note": "Wrapping any value gives nodes that hold exactly it, and it compares equal to it when member names are distinct."
  },
  {
   "property": "C38",
   "status": "partial",
   "theorems": [
    "C38_refuted",
    "C38_partial",
    "C38_exact"
   ],
   "note": "REFUTED: a wrapped number or boolean compared with another kind of value raises TypeError. C38_exact gives the outcome of every comparison; C38_partial shows totality for values of matching kinds."
  },
  {
   "property": "C39",
   "status": "proved",
   "theorems": [
    "C39_place",
    "C39_everywhere"
   ],
   "note": ""
  },
  {
   "property": "C40",
   "status": "proved",
   "theorems": [
    "C40_places",
    "C40_one_place"
   ],
   "note": "For plain assignments and deletions on objects, as stated. C40_array_refuted and C40_node_refuted show it fails for array deletions and for storing a node that already has a place."
  },
  {
   "property": "C41",
   "status": "proved",
   "theorems": [
    "C41_lookup",
    "C41_listing",
    "C41_value",
    "C41_frame"
   ],
   "note": ""
  },
  {
   "property": "C42",
   "status": "proved",
   "theorems": [
    "C42_exact",
    "C42_order",
    "C42_refused",
    "C42_transitive"
   ],
   "note": ""
  },
  {
   "property": "C43",
   "status": "proved",
   "theorems": [
    "C43_rounds",
    "C43_exact",
    "C43_commutes",
    "C43_int"
   ],
   "note": "The exponent limits of the decimal context are not modelled."
  },
  {
   "property": "C44",
   "status": "partial",
   "theorems": [
    "C44_exact",
    "C44_partial",
    "C44_path",
    "C44_token",
    "C44_index",
    "C44_refuted",
    "C44_index_refuted"
   ],
   "note": "REFUTED as stated: the pointer '/' returns the root although the member named '' exists, and array tokens such as '-1', '01', '+1' are accepted as indices. C44_exact gives the result of query for every document and pointer; C44_partial and C44_path give the positive half for every pointer but '/'."
  },
  {
   "property": "C45",
   "status": "proved",
   "theorems": [
    "C45_again",
    "C45_untouched"
   ],
   "note": "For every vocabulary of applicator keywords; members inside arrays may have any names, as they are never visited."
  },
  {
   "property": "C46",
   "status": "partial",
   "theorems": [
    "C46_exact",
    "C46_partial",
    "C46_refuted"
   ],
   "note": "REFUTED in one corner: a location '#/name' is hidden when some object elsewhere declares the anchor 'name' (C46_refuted). Proved for every document whose references are all local: C46_partial for locations reached without passing another reference, C46_exact for chains of references, anchors and arrays, with the exact members. References to other documents are modelled but not covered by these theorems."
  },
  {
   "property": "C47",
   "status": "partial",
   "theorems": [
    "C47_refuted",
    "C47_array",
    "C47_root",
    "C46_partial"
   ],
   "note": "REFUTED: an object inside an array keeps its $ref as an ordinary member (C47_array, every document), and a reference at the document root to any location by pointer never resolves: reading it recurses without end (C47_root, every document). Outside arrays and below the root C46_partial says it is followed."
  },
  {
   "property": "C48",
   "status": "proved",
   "theorems": [
    "C48_anchor",
    "C48_found",
    "C48_text"
   ],
   "note": "For documents whose references are local and whose ids are usable (fit_document)."
  },
  {
   "property": "C49",
   "status": "partial",
   "theorems": [
    "C49_refuted",
    "C49_never",
    "C49_partial"
   ],
   "note": "REFUTED: if a reference was already rewritten when another document turned out to be missing, the repeated load never ends (C49_refuted; C49_never, for every document of this form, with any members before and between that have no keywords). C49_partial: if the failing reference is the first keyword met, the failed load leaves no trace."
  },
  {
   "property": "C50",
   "status": "proved",
   "theorems": [
    "C50_root",
    "C50_nested",
    "C50_others"
   ],
   "note": "For documents whose references are local and whose ids are usable (fit_document)."
  },
  {
   "property": "C51",
   "status": "proved",
   "theorems": [
    "C51_history",
    "C51_relative",
    "C51_key"
   ],
   "note": "For every history of adds, lookups and loads, every loader behaviour and every behaviour of the authority pattern."
  },
  {
   "property": "C52",
   "status": "proved",
   "theorems": [
    "C52_stored",
    "C52_loader",
    "C52_no_trace",
    "C52_cached"
   ],
   "note": "For every history and every (stateful) loader."
  },
  {
   "property": "C53",
   "status": "partial",
   "theorems": [
    "C53_resolve_partial",
    "C53_from_base",
    "C53_absolute",
    "C53_relative",
    "C53_no_slash_refuted",
    "C53_relative_base_refuted",
    "C53_port_refuted"
   ],
   "note": "REFUTED as stated: a base whose path is non-empty without a slash loses its last character ('foo' resolving 'bar' gives 'fo/bar'); a base without scheme keeps dot segments; '//localhost:80/x' counts as absolute. Proved for every other base, exactly, for all URIs a program can obtain."
  },
  {
   "property": "C54",
   "status": "proved",
   "theorems": [
    "C54_dotless",
    "C54_stable",
    "C54_normal"
   ],
   "note": "For every URI obtainable by parsing, copying and resolving."
  },
  {
   "property": "C55",
   "status": "partial",
   "theorems": [
    "C55_exact",
    "C55_partial",
    "C55_refuted",
    "C55_network_refuted"
   ],
   "note": "REFUTED as stated: 'urn:x' prints as 'urn://x', '//host/p' as 'host/p'. C55_exact says for every text exactly when printing and reading again gives an equal URI."
  },
  {
   "property": "C56",
   "status": "proved",
   "theorems": [
    "C56_hash",
    "C56_base",
    "C56_distinct",
    "C56_bool"
   ],
   "note": "For every pair of URIs, every repr and hash function of texts."
  },
  {
   "property": "C57",
   "status": "partial",
   "theorems": [
    "C57_mapped",
    "C57_exact",
    "C57_partial",
    "C57_unmapped",
    "C57_refuted",
    "C57_host_refuted",
    "C57_relative_refuted"
   ],
   "note": "REFUTED as stated: a mapping prefix that does not end at a slash, that covers the host, or a URI without scheme lets '..' through ('http://h/a../x' under mapping 'http://h/a' gives '/d/../x'). C57_exact says when the result stays under the directory."
  },
  {
   "property": "C58",
   "status": "partial",
   "theorems": [
    "C58_partial",
    "C58_first",
    "C58_takes_effect",
    "C58_stale",
    "C58_registered",
    "C58_refuted"
   ],
   "note": "REFUTED as stated: resolve is cached, so a URI resolved before keeps its old answer. Proved: what each resolution answers in every history, that a first resolution sees the latest registration, and that a new registration takes effect once the URI has left the cache."
  },
  {
   "property": "C59",
   "status": "partial",
   "theorems": [
    "C59_hostname_exact",
    "C59_hostname_total",
    "C59_hostname_partial",
    "C59_hostname_refuted"
   ],
   "note": "REFUTED as stated: a final line feed is accepted (re.match with $), and case folding lets in U+017F, U+0130, U+0131, U+212A. C59_hostname_exact says exactly which strings are accepted, for every string; C59_hostname_partial is the English claim on ASCII strings without a line feed."
  },
  {
   "property": "C60",
   "status": "partial",
   "theorems": [
    "C60_date_exact",
    "C60_date_otherwise",
    "C60_date_partial",
    "C60_date_refuted"
   ],
   "note": "REFUTED as stated only by a final line feed, which is ignored. Exact characterization for every string; any decimal digit of any script counts where the pattern says \\d (digit table universally quantified)."
  },
  {
   "property": "C61",
   "status": "partial",
   "theorems": [
    "C61_time_accepts",
    "C61_time_index",
    "C61_time_attribute",
    "C61_time_outcomes",
    "C61_time_partial",
    "C61_datetime_accepts",
    "C61_datetime_index",
    "C61_datetime_outcomes",
    "C61_datetime_partial",
    "C61_only_value_error_refuted",
    "C61_fraction_refuted"
   ],
   "note": "REFUTED as stated: IndexError for clocks written with one colon (e.g. 12:3045), AttributeError for a final line feed in a time, the fraction of a datetime is dropped. Exact outcome for every string."
  },
  {
   "property": "C62",
   "status": "partial",
   "theorems": [
    "C62_roundtrip_partial",
    "C62_roundtrip_refuted",
    "C62_reads",
    "C62_otherwise",
    "C62_writes",
    "C62_outcomes"
   ],
   "note": "REFUTED at the zero duration, which is written P and rejected by the reader. Proved for every other whole-second timedelta in range; the float conversion of a text of at most two digits is a hypothesis. C62_reads/otherwise/outcomes give the reader's result for every string."
  },
  {
   "property": "C63",
   "status": "partial",
   "theorems": [
    "C63_semver_exact",
    "C63_semver_total",
    "C63_semver_partial",
    "C63_semver_refuted"
   ],
   "note": "REFUTED as stated: a final line feed is accepted. Exact characterization for every string."
  },
  {
   "property": "C64",
   "status": "partial",
   "theorems": [
    "C64_email_exact",
    "C64_email_partial",
    "C64_email_refuted"
   ],
   "note": "REFUTED as stated: a final line feed and non-ASCII letters from case folding are accepted. Exact characterization for every string."
  },
  {
   "property": "C65",
   "status": "partial",
   "theorems": [
    "C65_first",
    "C65_refuted",
    "C65_later",
    "C65_never",
    "C65_budget",
    "C65_repaired"
   ],
   "note": "REFUTED: the first import of any module of the package always fails with ImportError (C65_first); after one failed attempt exactly the modules outside validators (bar two), keywords, vocabulary and string_format can be imported (C65_later), those never (C65_never). C65_repaired: changing one import statement repairs every first import."
  },
  {
   "property": "C66",
   "status": "proved",
   "theorems": [
    "C66_parts",
    "C66_composed"
   ],
   "note": "For every text and every behaviour of the authority pattern. A line feed inside the fragment ends it; what follows is ignored (stated in the theorem)."
  },
  {
   "property": "C67",
   "status": "proved",
   "theorems": [
    "C67_parser",
    "C67_unreadable"
   ],
   "note": "File contents and the two parsers are arbitrary functions."
  },
  {
   "property": "C68",
   "status": "partial",
   "theorems": [
    "C68_refuted",
    "C68_partial"
   ],
   "note": "REFUTED: the same import fails the first time and succeeds the second (C68_refuted). C68_partial: from the first attempt on, the outcome is fixed."
  },
  {
   "property": "C69",
   "status": "proved",
   "theorems": [
    "C69_document"
   ],
   "note": "For documents whose references are local and resolve and whose ids are usable (fit_document, resolves is part of the hypothesis on look). Keyword operands that are themselves references to a non-object raise EUnmodelled on both sides."
  },
  {
   "property": "C70",
   "status": "proved",
   "theorems": [
    "C70_history"
   ],
   "note": "For documents whose references are local and resolve."
  },
  {
   "property": "C71",
   "status": "proved",
   "theorems": [
    "C71_plain"
   ],
   "note": ""
  },
  {
   "property": "C72",
   "status": "proved",
   "theorems": [
    "C72_reference"
   ],
   "note": ""
  },
  {
   "property": "C73",
   "status": "proved",
   "theorems": [
    "C73_boolean"
   ],
   "note": ""
  },
  {
   "property": "C74",
   "status": "partial",
   "theorems": [
    "C74_uri_refuted",
    "C74_uri_exact",
    "C74_uri_partial"
   ],
   "note": "REFUTED: a comma is accepted in the scheme, and a final line feed (C74_uri_refuted). C74_uri_exact says for every string what is accepted; C74_uri_partial is the property for ASCII text without commas in the scheme and without line feeds."
  },
  {
   "property": "C75",
   "status": "partial",
   "theorems": [
    "C75_url_refuted",
    "C75_url_exact",
    "C75_url_partial"
   ],
   "note": "REFUTED: a final line feed is accepted (C75_url_refuted). C75_url_exact says what is accepted for every string whose decimal digits are ASCII; C75_url_partial is the property for ASCII text without line feeds."
  },
  {
   "property": "C76",
   "status": "partial",
   "theorems": [
    "C76_private_refuted",
    "C76_any_host",
    "C76_private_partial"
   ],
   "note": "REFUTED: http://10.0.0.1/@example.com is accepted, its host being 10.0.0.1 (C76_private_refuted). C76_any_host: any accepted URL with any host and /@ put in front is accepted. C76_private_partial: no accepted URL without an @ after the host has a private host."
  },
  {
   "property": "C77",
   "status": "proved",
   "theorems": [
    "C77_format",
    "C77_known",
    "C77_unknown",
    "C77_table",
    "C77_no_other",
    "C77_registered",
    "C77_not_registered"
   ],
   "note": "byte, decimal, ip-address-v4, ip-address-v6, pattern and uuid are the standard library's parsers, which are parameters. url is stated for strings whose decimal digits are ASCII. A final line feed is part of the stated grammars where the code accepts it."
  },
  {
   "property": "C78",
   "status": "partial",
   "theorems": [
    "C78_refuted",
    "C78_after_load",
    "C78_after_load_new",
    "C78_partial"
   ],
   "note": "REFUTED: a document with a reference to the root of another document that has an id loads at first, but raises ValueError once that other document was loaded (C78_refuted). In general: while a document whose root has an absolute id is loaded, no document whose first core keyword is a reference to the whole of it, below the root, can be loaded, wrapped before (C78_after_load) or after (C78_after_load_new). C78_partial: documents whose references go to objects that are neither references nor have an id (sound_document) load at every moment of every history."
  },
  {
   "property": "C79",
   "status": "proved",
   "theorems": [
    "C79",
    "C79_docs"
   ],
   "note": "For libraries of sound documents: local references as in C46, references to other documents going to objects that are neither references nor have an id. Documents may refer to each other."
  },
  {
   "property": "C80",
   "status": "partial",
   "theorems": [
    "C80_refuted",
    "C80_exact",
    "C80_changes",
    "C80_partial"
   ],
   "note": "REFUTED: until its target document is loaded a reference answers with its own members (C80_refuted). C80_exact: which members every reference to an object has before and after, so the answer to `$ref` in node changes for each of them (C80_changes). C80_partial: once its type was asked, a node has the same members at every later moment."
  },
  {
   "property": "C81",
   "status": "proved",
   "theorems": [
    "C81",
    "C81_history"
   ],
   "note": "For documents every reference of which leads to something (what the documents say, `shows`, is total), of a finite library. str() of an array element is assumed to depend on its value only. The model starts validation again after loading a document where the code goes on."
  },
  {
   "property": "C82",
   "status": "partial",
   "theorems": [
    "C82_refuted",
    "C82_endless",
    "C79",
    "C78_partial"
   ],
   "note": "REFUTED: reading a reference whose target document holds a reference to a reference in the first recurses without end, though it works when the other document is read first (C82_refuted). In general: while a loaded document has a reference into one that is not loaded, and the first core keyword of that one is a reference to that reference, neither the type of the reference nor the load of the other document comes to an end (C82_endless). C79 covers mutual references whose targets are objects that are neither references nor have an id."
  },
  {
   "property": "C83",
   "status": "proved",
   "theorems": [
    "C83",
    "C83_kept",
    "C83_referenced",
    "C83_once"
   ],
   "note": "For every loader, history and document, sound or not. The loader is a function of the URI."
  },
  {
   "property": "C84",
   "status": "partial",
   "theorems": [
    "C84_refuted",
    "C84_property_refuted",
    "C84_property",
    "C84_property_identified",
    "C45_untouched"
   ],
   "note": "REFUTED: a constant with a member id cannot be loaded and one with $ref becomes its target (C84_refuted); a property named id makes load raise ValueError (C84_property_refuted, with the text Python gives for that property's schema). In general: every document without identifier in which the first object not fit to load has a member id that is not a text raises ValueError (C84_property), and so does every document whose identifier has a scheme and a rooted path, if that member is an object or array without core keywords and without /.. in its text (C84_property_identified). What is inside an array is never touched (C45_untouched)."
  },
  {
   "property": "C85",
   "status": "partial",
   "theorems": [
    "C85_refuted",
    "C85_as_it_stands",
    "C85_partial"
   ],
   "note": "REFUTED: the text of the reference is used as it stands (C85_refuted; C85_as_it_stands: for every document and reference that comes first, whatever the document's identifier, a URI that the store and the loader do not have as it stands makes loading raise). C85_partial: an absolute reference means its resolution against any base."
  },
  {
   "property": "C86",
   "status": "partial",
   "theorems": [
    "C86_refuted",
    "C86_exact"
   ],
   "note": "REFUTED: reference[i] first asks whether i is among the elements, and raises KeyError if not (C86_refuted). C86_exact says for every array and index what happens."
  },
  {
   "property": "C87",
   "status": "proved",
   "theorems": [
    "C87_blame"
   ],
   "note": "For environments whose own functions raise no ValidationError. The path is the one the code writes: see C33 for where that is not where the value is."
  },
  {
   "property": "C88",
   "status": "proved",
   "theorems": [
    "C88_loads",
    "C88_refused",
    "C88_kinds",
    "C88_array"
   ],
   "note": "For a root id that is relative the store must not already hold it (then loading lets it pass). An id inside enum is ignored only if it has no fragment."
  },
  {
   "property": "C89",
   "status": "partial",
   "theorems": [
    "C89_exact",
    "C89_partial",
    "C89_refuted"
   ],
   "note": "REFUTED as stated: enum [[1],[\"a\"]] raises TypeError on [\"a\"], enum [[1]] accepts [true], enum [0.1] rejects 0.1. C89_exact says for every schema and instance which of the three outcomes happens; C89_partial proves the claim when numbers stand against numbers and bools against bools inside structured members and a float instance has an exact text."
  },
  {
   "property": "C90",
   "status": "partial",
   "theorems": [
    "C90_partial",
    "C90_fresh",
    "C90_stale",
    "C90_forgotten",
    "C90_steady",
    "C90_refuted"
   ],
   "note": "REFUTED as stated: a query repeated after an assignment returns the node that was there before. C90_partial: for every history the answer is the right one, or the one the same text already got from the same document; failures are never remembered (C90_fresh); an answer is kept for at least 127 further calls whatever changes (C90_stale) and is looked up again after 128 other successful queries (C90_forgotten); if nothing changes the cache makes no difference (C90_steady)."
  },
  {
   "property": "C91",
   "status": "partial",
   "theorems": [
    "C91_loaded",
    "C91_declared",
    "C91_default",
    "C91_untouched",
    "C91_refuted",
    "C91_content_refuted"
   ],
   "note": "REFUTED as stated: a document that declares an identifier tells another one (local://<hash>/) before it is loaded, and of two equal documents with a $ref the loaded one tells a different default than the other. C91_loaded: asked once it is loaded, a document tells the same identifier for ever after, whatever is opened, loaded, queried, followed or edited; C91_declared: it is the declared one; C91_default: otherwise it is the hash of the printed JSON value; C91_untouched: loading makes no difference for documents without $id, $ref and $anchor."
  },
  {
   "property": "C92",
   "status": "partial",
   "theorems": [
    "C92_partial",
    "C92_refuted"
   ],
   "note": "REFUTED as stated: {\"const\": 1} and {\"const\": \"1\"} print alike and tell the same identifier whatever the hash. C92_partial: for documents without strings other than names, equal identifiers mean equal JSON (numbers of the same decimal digits identified) or a hash collision."
  },
  {
   "property": "C93",
   "status": "partial",
   "theorems": [
    "C93_partial",
    "C93_fails",
    "C93_refuted"
   ],
   "note": "REFUTED as stated: a lone surrogate in a string value raises UnicodeEncodeError. C93_fails: it does so for every such document; C93_partial: for every other document asking succeeds and gives local://<hash>/."
  },
  {
   "property": "C94",
   "status": "proved",
   "theorems": [
    "C94_ipv4",
    "C94_ipv4_number",
    "C94_schema"
   ],
   "note": "Through the format table and through a schema {\"format\": name}. ipaddress.IPv4Address as in CPython 3.11."
  },
  {
   "property": "C95",
   "status": "proved",
   "theorems": [
    "C95_ipv6",
    "C95_ip",
    "C95_ipv6_number",
    "C94_schema"
   ],
   "note": "ipaddress.IPv6Address as in CPython 3.11."
  },
  {
   "property": "C96",
   "status": "partial",
   "theorems": [
    "C96_uuid_exact",
    "C96_uuid_chars",
    "C96_uuid_partial",
    "C96_uuid_canonical",
    "C96_uuid_length",
    "C96_not_text",
    "C96_uuid_refuted",
    "C94_schema"
   ],
   "note": "REFUTED as stated: hyphens may stand anywhere or be missing, and underscores, white space, a plus sign and 0x count as digits. C96_uuid_exact: what is accepted, for every text; C96_uuid_chars: the same with the characters of other alphabets told one by one; C96_uuid_partial: a text of hexadecimal digits and hyphens is accepted exactly when it has 32 digits; C96_uuid_canonical: every UUID of RFC 4122 is accepted, also in braces and after urn:uuid:."
  },
  {
   "property": "C97",
   "status": "partial",
   "theorems": [
    "C97_byte_exact",
    "C97_byte_partial",
    "C97_byte_encoded",
    "C97_byte_refuted",
    "C96_not_text",
    "C94_schema"
   ],
   "note": "REFUTED as stated: characters outside the alphabet are skipped, and nothing after complete padding is read. C97_byte_exact: what is accepted, for every text; C97_byte_partial: alphabet characters followed by equals signs; C97_byte_encoded: every encoding of bytes is accepted."
  },
  {
   "property": "C98",
   "status": "partial",
   "theorems": [
    "C98_decimal_exact",
    "C98_decimal_chars",
    "C98_decimal_partial",
    "C98_decimal_refuted",
    "C94_schema"
   ],
   "note": "REFUTED as stated: white space around and underscores anywhere are accepted. C98_decimal_exact: what is accepted, for every text; C98_decimal_chars: the same with white space, underscores and the digits of other alphabets told one by one; C98_decimal_partial: for texts of visible ASCII characters without underscores the property holds."
  },
  {
   "property": "C99",
   "status": "partial",
   "theorems": [
    "C99_threads_partial",
    "C99_loaded_partial",
    "C99_every_call_ends",
    "C99_threads_refuted"
   ],
   "note": "REFUTED as stated: with patternProperties, a thread can find the table of patterns empty while another thread builds it again, and then accepts a wrong value; another interleaving gives TypeError. C99_threads_partial: for schemas without patternProperties (in the root and the schemas reached through properties), with the keywords of DRAFT_2020_12_VOCABULARY, every interleaving of any number of threads gives each call its outcome alone. C99_loaded_partial: with patternProperties too, once the validators the calls come to are loaded (C99_afterwards: after one call made alone). C99_every_call_ends: a thread that keeps getting turns is done at some point, for every schema."
  }
 ]
}