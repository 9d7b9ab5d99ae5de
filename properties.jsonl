{"id": "C01", "title": "JSON pointer tokens survive print and parse", "statement": "For every non-empty list of reference tokens (any unicode text, including '~' and '/'), building a pointer with JsonPointer.from_list, printing it with str and parsing the text with JsonPointer(...) succeeds and yields exactly the same tokens in the same order.", "quantifier": "every non-empty list of arbitrary strings", "why_tests_cant": "The token alphabet is unbounded and the escaping order (~ before /) only fails on particular adjacent characters.", "anchors": ["jsoned/json_pointer.py: JsonPointer.__init__, __str__, from_list, escape, unescape"]}
{"id": "C02", "title": "JSON pointer syntax accepted", "statement": "JsonPointer(s) succeeds exactly when s is empty, or starts with '/' and every '~' in it is immediately followed by '0' or '1'; in every other case it raises ValueError.", "quantifier": "every string", "why_tests_cant": "Regular-expression acceptance has to be exact over infinitely many strings.", "anchors": ["jsoned/json_pointer.py: JsonPointer.POINTER_REGEX, JsonPointer.__init__"]}
{"id": "C03", "title": "Printing a parsed pointer gives back its text", "statement": "For every non-empty string s accepted by JsonPointer, str(JsonPointer(s)) == s. (For the empty string the printed form is '/', which parses back to a different pointer.)", "quantifier": "every accepted pointer string", "why_tests_cant": "Only a proof covers all escape sequences and all lengths.", "anchors": ["jsoned/json_pointer.py: JsonPointer.__init__, __str__, unescape, escape"]}
{"id": "C04", "title": "type accepts exactly the listed JSON types", "statement": "A schema {'type': T} (T a type name or a list of them) accepts an instance iff the instance's JSON type is listed, where integers also count as 'number', booleans are never numbers, and fractional/Decimal numbers are never 'integer'; every other instance is rejected with a type error.", "quantifier": "every list of the seven type names and every JSON instance of any depth", "why_tests_cant": "Instances and type lists are unbounded; the bool/int subclass trap depends on the Python runtime type.", "anchors": ["jsoned/validators/core_validators.py: TypeValidator.validate", "jsoned/keywords/type_keyword.py: TypeKeyword.apply"]}
{"id": "C05", "title": "enum accepts exactly the listed scalars and never confuses booleans with numbers", "statement": "A schema {'enum': [e1..en]} whose members are scalars accepts an instance iff the instance equals some member and both are booleans or neither is (so true is not 1 and false is not 0); otherwise it raises an enum error.", "quantifier": "every list of scalar members and every JSON instance", "why_tests_cant": "Interaction of 0/1/True/False/0.0 with list membership depends on every combination of members.", "anchors": ["jsoned/validators/core_validators.py: EnumValidator.__init__, EnumValidator.validate", "jsoned/keywords/enum_keyword.py: EnumKeyword.apply"]}
{"id": "C06", "title": "const accepts exactly the expected scalar", "statement": "A schema {'const': c} with scalar c accepts an instance iff it equals c numerically/textually and both or neither are booleans; otherwise it raises a const error.", "quantifier": "every scalar c and every JSON instance", "why_tests_cant": "All pairs of values and runtime types have to be covered.", "anchors": ["jsoned/validators/core_validators.py: ConstValidator.validate", "jsoned/keywords/const_keyword.py: ConstKeyword.apply"]}
{"id": "C07", "title": "A number accepts itself as bound, constant or enum member", "statement": "For every number x written in a schema as const, enum member, minimum or maximum, validating that same number x succeeds, whatever numeric type (int, float, Decimal) carries it.", "quantifier": "every number and every Python carrier type", "why_tests_cant": "Floats compare with Decimals by exact binary value, so whether it holds depends on the individual number; sampling integers or halves never shows it.", "anchors": ["jsoned/types/json_number.py: JsonNumber.__init__", "jsoned/validators/number_validators.py", "jsoned/validators/core_validators.py: ConstValidator, EnumValidator"]}
{"id": "C08", "title": "Numeric bounds are exact", "statement": "minimum/maximum accept a numeric instance iff it is >=/<= the bound, exclusiveMinimum/exclusiveMaximum iff it is strictly beyond, compared by exact mathematical value for every mix of int, bool, float and Decimal; the legacy boolean form (exclusiveMaximum: true beside maximum) makes the bound strict and exclusiveMaximum: false leaves it inclusive.", "quantifier": "every bound and every numeric instance", "why_tests_cant": "Boundary equality over all numeric carriers and magnitudes.", "anchors": ["jsoned/validators/number_validators.py: NumberMinimumValidator, NumberMaximumValidator", "jsoned/keywords/maximum_keyword.py", "jsoned/keywords/minimum_keyword.py", "jsoned/keywords/exclusive_maximum_keyword.py", "jsoned/keywords/exclusive_minimum_keyword.py"]}
{"id": "C09", "title": "A numeric exclusive bound does not change the inclusive one", "statement": "When a schema carries both a numeric maximum M and a numeric exclusiveMaximum X (or the minimum pair), an instance is accepted iff it is <= M and < X.", "quantifier": "every pair of bounds and every numeric instance", "why_tests_cant": "The two keywords read each other's operands; the interference shows up for one particular operand value only.", "anchors": ["jsoned/keywords/maximum_keyword.py: MaximumKeyword.apply", "jsoned/keywords/minimum_keyword.py: MinimumKeyword.apply", "jsoned/types/json_number.py: JsonNumber.__eq__"]}
{"id": "C10", "title": "multipleOf is decimal-exact", "statement": "For every non-zero decimal d and every int/float/Decimal instance x whose decimal text is used, {'multipleOf': d} accepts x iff x is an integer multiple of d, with no binary rounding, whenever the integer quotient has at most 28 digits; outside that range, or for d = 0, the call raises a decimal error and never accepts.", "quantifier": "every divisor and every numeric instance", "why_tests_cant": "Divisibility over unbounded decimals and the quotient-size cut-off cannot be sampled.", "anchors": ["jsoned/validators/number_validators.py: NumberMultipleOfValidator.validate", "jsoned/keywords/multiple_of_keyword.py"]}
{"id": "C11", "title": "Length and size bounds are inclusive counts", "statement": "minLength/maxLength (on strings), minItems/maxItems (on arrays) and minProperties/maxProperties (on objects) accept iff the number of code points / items / members is >= (<=) the integer part of the operand.", "quantifier": "every operand and every string, array or object", "why_tests_cant": "Off-by-one at the boundary for all sizes and fractional operands.", "anchors": ["jsoned/validators/string_validators.py: StringMinimumLengthValidator, StringMaximumLengthValidator", "jsoned/validators/array_validators.py: ArrayMinimumLengthValidator, ArrayMaximumLengthValidator", "jsoned/validators/object_validators.py: MinimumPropertiesValidator, MaximumPropertiesValidator"]}
{"id": "C12", "title": "required reports the first missing member", "statement": "For an object instance {'required': R} accepts iff every name in R is a member; otherwise the error names the first (in schema order) name of R that is missing.", "quantifier": "every list of names and every object", "why_tests_cant": "Arbitrary lists with repetitions and arbitrary member sets.", "anchors": ["jsoned/validators/object_validators.py: RequiredPropertiesValidator.validate", "jsoned/keywords/required_properties_keyword.py"]}
{"id": "C13", "title": "dependentRequired", "statement": "For an object instance, dependentRequired accepts iff for every trigger member that is present all its listed names are present; non-objects are always accepted; a rejection names a present trigger and a missing listed name.", "quantifier": "every dependency table and every instance", "why_tests_cant": "Quantifies over arbitrary tables and member sets.", "anchors": ["jsoned/validators/object_validators.py: DependentRequiredValidator.validate", "jsoned/keywords/dependent_required_keyword.py"]}
{"id": "C14", "title": "dependentSchemas", "statement": "For an object instance, dependentSchemas accepts iff the whole instance is accepted by the schema of every trigger member that is present; non-objects are always accepted.", "quantifier": "every dependency table, every schema graph and every instance", "why_tests_cant": "Sub-schemas are arbitrary, including recursive ones.", "anchors": ["jsoned/validators/object_validators.py: DependentSchemasValidator.validate", "jsoned/keywords/dependent_schemas_keyword.py"]}
{"id": "C15", "title": "Each object member is judged by exactly one rule family", "statement": "For an object instance under properties/patternProperties/additionalProperties/unevaluatedProperties: a declared member is checked by its property schema only; otherwise it is checked by every matching pattern schema; only if none matches by additionalProperties if that restricts; and only if that keyword does not restrict, by unevaluatedProperties. The object is accepted iff all these checks accept.", "quantifier": "every combination of these keywords in any vocabulary order, every schema graph, every regex engine and every object", "why_tests_cant": "Combination of five keywords, arbitrary patterns and arbitrary nested schemas.", "anchors": ["jsoned/validators/object_validators.py: ObjectValidator.validate", "jsoned/keywords/properties_keyword.py", "jsoned/keywords/pattern_properties_keyword.py", "jsoned/keywords/additional_properties_keyword.py", "jsoned/keywords/unevaluated_properties_keyword.py"]}
{"id": "C16", "title": "propertyNames checks every member name", "statement": "propertyNames accepts an object iff every member name (as a string instance) is accepted by its schema, in addition to the other object keywords.", "quantifier": "every schema graph and every object", "why_tests_cant": "Unbounded numbers of members and arbitrary name schemas.", "anchors": ["jsoned/validators/object_validators.py: ObjectValidator.validate", "jsoned/keywords/property_names_keyword.py"]}
{"id": "C17", "title": "allOf is conjunction", "statement": "{'allOf': [s1..sn]} accepts an instance iff every si accepts it; if one rejects, the reported error is that of the first rejecting si.", "quantifier": "every list of sub-schemas in any (possibly cyclic) schema graph and every instance", "why_tests_cant": "Sub-schemas are arbitrary and recursive.", "anchors": ["jsoned/validators/composition_validators.py: AllOfValidator.validate", "jsoned/keywords/all_of_keyword.py"]}
{"id": "C18", "title": "anyOf is disjunction", "statement": "{'anyOf': [s1..sn]}, n >= 1, with each si either accepting or rejecting: accepts iff some si accepts; if all reject, the error is that of the last si.", "quantifier": "every non-empty list of sub-schemas and every instance", "why_tests_cant": "Sub-schemas are arbitrary and recursive.", "anchors": ["jsoned/validators/composition_validators.py: AnyOfValidator.validate", "jsoned/keywords/any_of_keyword.py"]}
{"id": "C19", "title": "oneOf accepts iff exactly one branch accepts", "statement": "{'oneOf': [s1..sn]}, n >= 1, with each si either accepting or rejecting: accepts iff exactly one index i has si accepting.", "quantifier": "every non-empty list of sub-schemas and every instance", "why_tests_cant": "Counting over arbitrary lists of arbitrary schemas.", "anchors": ["jsoned/validators/composition_validators.py: OneOfValidator.validate", "jsoned/keywords/one_of_keyword.py"]}
{"id": "C20", "title": "not is negation", "statement": "{'not': s} accepts an instance iff s rejects it with a validation error, and rejects iff s accepts it; a schema mistake inside s is reported, not turned into acceptance.", "quantifier": "every schema graph and every instance", "why_tests_cant": "Sub-schema arbitrary.", "anchors": ["jsoned/validators/composition_validators.py: NotValidator.validate", "jsoned/keywords/not_keyword.py"]}
{"id": "C21", "title": "if/then/else selects exactly one branch", "statement": "With if, then and else present (in any vocabulary order): an instance accepted by `if` is judged by `then` only, one rejected by `if` is judged by `else` only; a missing then or else branch accepts.", "quantifier": "every schema graph, vocabulary order and instance", "why_tests_cant": "Branch selection over arbitrary schemas, and the missing-branch cases.", "anchors": ["jsoned/validators/composition_validators.py: ConditionalValidator.validate", "jsoned/keywords/if_keyword.py", "jsoned/keywords/then_keyword.py", "jsoned/keywords/else_keyword.py"]}
{"id": "C22", "title": "items checks every element", "statement": "For an array instance, {'items': s} accepts iff s accepts every element; the tuple form checks element i with the i-th schema and the rest with additionalItems.", "quantifier": "every schema graph and arrays of every length", "why_tests_cant": "Unbounded lengths; boundary between tuple part and rest.", "anchors": ["jsoned/validators/array_validators.py: ArrayValidator.validate", "jsoned/keywords/items_keyword.py"]}
{"id": "C23", "title": "Array validation terminates", "statement": "Validating a finite array against tuple-style items or prefixItems always finishes with acceptance or an error, also when the array is shorter than the tuple.", "quantifier": "every tuple of schemas and every array", "why_tests_cant": "Non-termination is invisible to a finite test run and depends on whether null satisfies the next tuple schema.", "anchors": ["jsoned/validators/array_validators.py: ArrayValidator.validate"]}
{"id": "C24", "title": "contains counts accepted elements", "statement": "{'contains': s, 'minContains': m, 'maxContains': M} accepts an array iff the number of elements accepted by s is >= m (default 1) and <= M when M is given.", "quantifier": "every schema graph, every m and M, arrays of every length", "why_tests_cant": "Counting over arbitrary arrays; the boundary values 0 behave specially.", "anchors": ["jsoned/validators/array_validators.py: ArrayContainsValidator.validate", "jsoned/keywords/contains_keyword.py"]}
{"id": "C25", "title": "uniqueItems", "statement": "{'uniqueItems': true} accepts an array of scalars iff no two positions hold equal values; on rejection the reported index is the first position that repeats an earlier element.", "quantifier": "arrays of every length", "why_tests_cant": "Pairwise property over unbounded arrays with cross-type equality.", "anchors": ["jsoned/validators/array_validators.py: ArrayUniqueValidators.validate", "jsoned/keywords/unique_items_keyword.py"]}
{"id": "C26", "title": "A schema accepts iff all its recognised keywords accept", "statement": "For every schema object and every vocabulary in which no keyword construction fails, an instance is accepted iff every keyword of the vocabulary that occurs in the schema accepts it; members that no vocabulary keyword recognises have no effect.", "quantifier": "every vocabulary (any order, any subset), schema graph and instance", "why_tests_cant": "Arbitrary keyword combinations share validator objects.", "anchors": ["jsoned/json_core.py: LazyValidator._load_validator, LazyValidator.validate, can_apply_keyword", "jsoned/validators/core_validators.py: CompoundValidator.validate"]}
{"id": "C27", "title": "Vocabulary order does not change the verdict", "statement": "Reordering the vocabulary list never changes whether an instance is accepted.", "quantifier": "every permutation of every vocabulary, every schema graph and instance", "why_tests_cant": "Factorially many orders; sharing of validator slots is order sensitive.", "anchors": ["jsoned/json_core.py: LazyValidator._load_validator", "jsoned/keywords/prefix_items_keyword.py", "jsoned/keywords/items_keyword.py"]}
{"id": "C28", "title": "Malformed keyword operands are always reported", "statement": "If a recognised keyword's operand has a JSON type the keyword does not support, validating any instance against that schema raises SchemaParseError (never accepts and never reports the instance as invalid), unless an earlier keyword in the vocabulary already raised.", "quantifier": "every keyword, every wrong operand, every instance", "why_tests_cant": "All combinations of keyword and operand type, independent of instance.", "anchors": ["jsoned/keywords/*.py: apply", "jsoned/json_core.py: LazyValidator._load_validator"]}
{"id": "C29", "title": "Boolean sub-schemas", "statement": "The sub-schema true accepts every instance and false rejects every instance, wherever a sub-schema is allowed by properties, items, allOf/anyOf/oneOf, patternProperties, dependentSchemas.", "quantifier": "every instance", "why_tests_cant": "All instances.", "anchors": ["jsoned/json_core.py: LazyValidator._load_validator", "jsoned/validators/core_validators.py: FailValidator"]}
{"id": "C30", "title": "Validation has no memory", "statement": "For a fixed schema, the outcome of validate(v) (acceptance, error, exception) is the same after any history of earlier validate calls on the same schema object, including calls that raised in the middle of building the validator.", "quantifier": "every finite history of validate calls", "why_tests_cant": "Lazily built, partially filled validators survive exceptions; histories are unbounded.", "anchors": ["jsoned/json_core.py: LazyValidator.validate, LazyValidator._load_validator, JsonSchema.validator"]}
{"id": "C31", "title": "Member order of the instance does not matter", "statement": "Permuting the members of objects at the top of an instance never changes whether a schema accepts it.", "quantifier": "every permutation of members, every schema graph", "why_tests_cant": "Permutations are unbounded.", "anchors": ["jsoned/validators/object_validators.py: ObjectValidator.validate"]}
{"id": "C32", "title": "Validation is a function: no accept and reject for the same input", "statement": "For every schema graph and instance, there is at most one final outcome, and giving the evaluator more stack never changes an outcome already reached.", "quantifier": "every schema graph, instance and recursion budget", "why_tests_cant": "Quantifies over unbounded recursion depth.", "anchors": ["jsoned/json_core.py: LazyValidator.validate"]}
{"id": "C33", "title": "Error paths name the failing location", "statement": "When validation of an instance is rejected, the error's path is the dot-joined list of member names / indices leading from the instance root to the sub-instance that failed.", "quantifier": "every schema graph, instance and failing location", "why_tests_cant": "Nesting depth and names are unbounded.", "anchors": ["jsoned/validators/core_validators.py: Context.__add__, Context.path", "jsoned/validators/object_validators.py", "jsoned/validators/array_validators.py"]}
{"id": "C34", "title": "Rejection is always a ValidationError", "statement": "When a value violates a keyword, the exception that leaves validate is a ValidationError, whatever the member names in the instance are.", "quantifier": "every instance, in particular every member name", "why_tests_cant": "Depends on the characters of member names met at any depth.", "anchors": ["jsoned/errors/validation_error.py: ValidationError.__init__, __str__", "jsoned/validators/core_validators.py: Context.path"]}
{"id": "C35", "title": "validate is total on JSON", "statement": "For every well-formed schema and every JSON instance, validate either returns or raises ValidationError; keywords for another JSON type ignore the instance.", "quantifier": "every well-formed schema and every instance", "why_tests_cant": "All pairs of keyword and instance type, at any depth.", "anchors": ["jsoned/validators/*.py: validate"]}
{"id": "C36", "title": "Rendering an error never fails", "statement": "str(error) succeeds for every ValidationError the library raises.", "quantifier": "every error raised on any schema and instance", "why_tests_cant": "Depends on arbitrary text inside the rejected value and path.", "anchors": ["jsoned/errors/validation_error.py: ValidationError.__str__", "jsoned/validators/core_validators.py: FailValidator.validate"]}
{"id": "C37", "title": "Wrapping a JSON value preserves it", "statement": "For every JSON value v whose member names are distinct, wrapping it (JsonObject/JsonArray/...) yields a tree with the same shape: same members in the same order, each scalar of the right wrapper class (booleans are JsonBoolean, never JsonNumber) and the wrapped value compares equal to v without raising.", "quantifier": "every JSON value of any depth", "why_tests_cant": "Unbounded nesting; bool/int subclassing.", "anchors": ["jsoned/types/json_complex.py: _map_value, JsonObject.__init__, JsonArray.__init__", "jsoned/types/*.py: __eq__"]}
{"id": "C38", "title": "Comparing wrapped values is total", "statement": "== between a wrapped JSON value and any JSON value returns True or False.", "quantifier": "every pair of JSON values", "why_tests_cant": "Exceptions depend on the first differing pair of leaves.", "anchors": ["jsoned/types/json_number.py: JsonNumber.__eq__", "jsoned/types/json_boolean.py: JsonBoolean.__eq__", "jsoned/types/json_type.py: JsonType.__eq__"]}
{"id": "C39", "title": "Every node knows its place", "statement": "In a freshly wrapped document, for every pointer that leads from the root to a node, the node's path is that pointer, its parent is the node one step up, its key is the last token and its root is the document root.", "quantifier": "every document and every location in it", "why_tests_cant": "Unbounded depth and breadth.", "anchors": ["jsoned/types/json_type.py: JsonType.path, root, is_root", "jsoned/types/json_complex.py: _map_value"]}
{"id": "C40", "title": "Places stay right under edits of objects", "statement": "After any sequence of member assignments (of plain values) and deletions on any objects of a document, every node still reachable from the root has a path that leads from the root to it.", "quantifier": "every finite history of edits", "why_tests_cant": "Histories are unbounded.", "anchors": ["jsoned/types/json_complex.py: JsonObject.__setitem__, JsonObject.__delitem__", "jsoned/types/json_type.py: JsonType.path"]}
{"id": "C41", "title": "Objects behave like ordered maps", "statement": "Any sequence of set, delete, get, contains, keys, len on a JsonObject gives the answers of an insertion-ordered map.", "quantifier": "every finite history", "why_tests_cant": "Histories are unbounded.", "anchors": ["jsoned/types/json_complex.py: JsonObject"]}
{"id": "C42", "title": "JsonNumber comparisons form a total order by exact value", "statement": "For JsonNumber against JsonNumber, int, float or Decimal, exactly one of <, ==, > holds, <= and >= are their unions, and int/Decimal comparison is by exact mathematical value while floats are compared by their decimal text.", "quantifier": "every pair of numbers", "why_tests_cant": "All magnitudes and carriers.", "anchors": ["jsoned/types/json_number.py: JsonNumber.__eq__, __lt__, __le__, __gt__, __ge__"]}
{"id": "C43", "title": "JsonNumber addition", "statement": "JsonNumber addition is commutative, and exact whenever the exact sum has at most 28 significant digits; longer sums are rounded half-even to 28 digits.", "quantifier": "every pair of numbers within the exponent limits of the decimal context", "why_tests_cant": "Precision cut-off over unbounded digit strings.", "anchors": ["jsoned/types/json_number.py: JsonNumber.__add__"]}
{"id": "C44", "title": "query walks the pointer", "statement": "For a loaded document without anchors or references, query(p) returns exactly the node reached by following p's tokens (member names in objects, decimal indices in arrays), and fails otherwise; in particular query(node.path) is node.", "quantifier": "every document and every pointer", "why_tests_cant": "All documents and pointers; special cases for the empty token and negative indices.", "anchors": ["jsoned/json_core.py: JsonSchema.query"]}
{"id": "C45", "title": "Loading is idempotent and leaves keyword-free documents untouched", "statement": "load() on a document already loaded changes nothing, and loading a document none of whose objects has a member named by an applicator keyword leaves every node unchanged.", "quantifier": "every document and vocabulary", "why_tests_cant": "All documents.", "anchors": ["jsoned/json_core.py: JsonSchema.load, _process_node"]}
{"id": "C46", "title": "A local $ref reads as its target", "statement": "After loading, an object with a $ref to a location of the same document reads as the target: for an object target its members are the target's members plus the sibling members the target does not define; its type is the target's type.", "quantifier": "every document and every reference location outside arrays", "why_tests_cant": "All documents, reference chains and sibling overlaps.", "anchors": ["jsoned/keywords/ref_keyword.py: JsonReference, RefKeyword.apply", "jsoned/json_core.py: _process_node, query"]}
{"id": "C47", "title": "References are followed everywhere a schema may occur", "statement": "A $ref is honoured wherever a sub-schema may occur, including inside the arrays of allOf, anyOf, oneOf, items and prefixItems and at the document root.", "quantifier": "every document and every schema position", "why_tests_cant": "All schema positions.", "anchors": ["jsoned/json_core.py: JsonSchema._process_node", "jsoned/keywords/ref_keyword.py"]}
{"id": "C48", "title": "Anchors are found by name", "statement": "After loading, query('/name') returns the object that declared $anchor: name (outside arrays), at the place where it was, when no other object declares the same name; the $anchor member is removed from it and its other members stay.", "quantifier": "every document whose references point into it and whose ids are usable URIs, and every anchor name", "why_tests_cant": "All documents.", "anchors": ["jsoned/keywords/anchor_keyword.py: AnchorKeyword.apply", "jsoned/json_core.py: JsonSchema.query"]}
{"id": "C49", "title": "A failed load can be retried", "statement": "If load() raises, calling it again after the cause is gone behaves like a first load.", "quantifier": "every document and failure point", "why_tests_cant": "The failure can occur after any number of nodes were already rewritten in place.", "anchors": ["jsoned/json_core.py: JsonSchema.load, _process_node"]}
{"id": "C50", "title": "Documents with an $id are registered under it", "statement": "After loading a document whose root declares an absolute $id (or id), the store contains the document under that base URI unless one was registered there before; a nested declaration outside arrays and enums registers a child document (the object at that place) under the URI resolved against the root's; other URIs keep what they had.", "quantifier": "every document whose references point into it and whose ids are usable URIs, and every URI", "why_tests_cant": "All documents and URI combinations.", "anchors": ["jsoned/keywords/id_keyword.py: IdKeyword.apply", "jsoned/json_store.py: JsonStore.add"]}
{"id": "C51", "title": "The store is a map keyed by base URI", "statement": "After any sequence of add/load operations, get and `in` answer according to the latest document put under the same base URI text (scheme, authority and path; query and fragment ignored), and adding a document under a relative URI is refused with ValueError without changing the store.", "quantifier": "every finite history of store operations", "why_tests_cant": "Histories are unbounded.", "anchors": ["jsoned/json_store.py: JsonStore"]}
{"id": "C52", "title": "Loading is cached and failures leave no trace", "statement": "JsonStore.load returns the stored document whenever one is stored under the base URI, consults the loader otherwise, stores exactly what the loader returned, and stores nothing when the loader fails; a missing file surfaces as JsonLoadError.", "quantifier": "every history of loads with any loader behaviour", "why_tests_cant": "Loader behaviour and histories are arbitrary.", "anchors": ["jsoned/json_store.py: JsonStore.load_uri"]}
{"id": "C53", "title": "URI resolution", "statement": "base.resolve(r): an absolute r is returned unchanged; a fragment-only r keeps scheme, authority and path of base; an r with absolute path replaces the path; otherwise the path is base's directory plus r's path with dot segments removed; scheme and authority always come from base.", "quantifier": "every base and reference", "why_tests_cant": "All path shapes and dot-segment combinations.", "anchors": ["jsoned/uri.py: Uri.resolve, Uri.copy_with"]}
{"id": "C54", "title": "Normalised paths contain no dot segments", "statement": "Every path of a URI with a scheme contains no '.' or '..' segment, and normalising again changes nothing.", "quantifier": "every URI string", "why_tests_cant": "All paths.", "anchors": ["jsoned/uri.py: Uri.__init__, Uri.copy_with"]}
{"id": "C55", "title": "Printing and reparsing a URI", "statement": "For every URI u, Uri(str(u)) == u.", "quantifier": "every URI string", "why_tests_cant": "All component combinations, in particular absent ones.", "anchors": ["jsoned/uri.py: Uri.__str__, Uri.__init__, Uri.__eq__"]}
{"id": "C56", "title": "Equal URIs hash equally and print equally", "statement": "If two Uri objects compare equal they have the same text and hash, and base_uri drops exactly query and fragment and is idempotent.", "quantifier": "every pair of URIs", "why_tests_cant": "All pairs.", "anchors": ["jsoned/uri.py: Uri.__eq__, Uri.__hash__, Uri.base_uri"]}
{"id": "C57", "title": "Mapped files stay under the mapped directory", "statement": "MappableUriResolver.resolve of a URI matching a mapping returns a path of the form mapped directory / remaining segments, none of which is '..' or absolute.", "quantifier": "every URI and mapping", "why_tests_cant": "Path traversal depends on particular segments.", "anchors": ["jsoned/uri_resolver.py: MappableUriResolver.resolve"]}
{"id": "C58", "title": "Resolver mappings take effect", "statement": "Registering a resolver for a scheme affects every later resolution of URIs of that scheme.", "quantifier": "every history of register/resolve calls", "why_tests_cant": "A cache in front of resolution makes the answer depend on history.", "anchors": ["jsoned/uri_loader.py: DefaultLoader.register, DefaultLoader.resolve"]}
{"id": "C59", "title": "hostname format", "statement": "The hostname format accepts exactly the dot-separated sequences of labels of 1..63 letters, digits and inner hyphens.", "quantifier": "every string", "why_tests_cant": "All strings.", "anchors": ["jsoned/validators/format_validators.py: HOSTNAME_REGEX, validate_format_hostname"]}
{"id": "C60", "title": "date parsing", "statement": "parse_iso_date succeeds exactly on YYYY-MM-DD with each hyphen optional and a real Gregorian date, returns that date, and raises ValueError otherwise.", "quantifier": "every string", "why_tests_cant": "All strings and calendar dates.", "anchors": ["jsoned/iso_datetime.py: parse_iso_date"]}
{"id": "C61", "title": "time and datetime parsing fail only with ValueError", "statement": "parse_iso_time and parse_iso_datetime either return a value whose fields are the written ones or raise ValueError.", "quantifier": "every string", "why_tests_cant": "All strings.", "anchors": ["jsoned/iso_datetime.py: parse_iso_time, parse_iso_datetime", "jsoned/validators/format_validators.py: validate_format_time, validate_format_datetime"]}
{"id": "C62", "title": "ISO durations round-trip", "statement": "For every timedelta of whole seconds, parse_iso_duration(timedelta_to_iso_duration(td)) == td.", "quantifier": "every whole-second timedelta", "why_tests_cant": "Unbounded range and sign.", "anchors": ["jsoned/iso_datetime.py: parse_iso_duration, timedelta_to_iso_duration"]}
{"id": "C63", "title": "semver format", "statement": "The semver format accepts exactly MAJOR.MINOR.PATCH of digits with optional dot-separated pre-release and build identifiers.", "quantifier": "every string", "why_tests_cant": "All strings.", "anchors": ["jsoned/validators/format_validators.py: SEMVER_REGEX, validate_format_semver"]}
{"id": "C64", "title": "email format", "statement": "The email format accepts exactly local@host with the documented character sets, host labels of 1..63 characters and no '..'.", "quantifier": "every string", "why_tests_cant": "All strings.", "anchors": ["jsoned/validators/format_validators.py: EMAIL_REGEX, validate_format_email"]}
{"id": "C65", "title": "The package can be imported", "statement": "Importing any public module of the package first succeeds.", "quantifier": "every choice of first imported module", "why_tests_cant": "Circular imports only show up for the import order that triggers them.", "anchors": ["jsoned/validators/__init__.py", "jsoned/validators/composition_validators.py"]}
{"id": "C66", "title": "A URI text is read into its RFC 3986 parts", "statement": "Uri(text) exposes as scheme, authority, path, query and fragment exactly the components RFC 3986 assigns to the text, with the scheme in lower case, percent escapes in upper case, and, when there is a scheme, dot segments removed from the path; a line feed inside the fragment ends it and what follows is ignored.", "quantifier": "every text", "why_tests_cant": "All texts, in particular absent components, colons in paths and delimiters inside components.", "anchors": ["jsoned/uri.py: Uri.__init__"]}
{"id": "C67", "title": "A file is parsed by its extension", "statement": "DefaultLoader.load_file reads a file as JSON when its name ends in .json, as YAML when it ends in .yaml or .yml, and refuses every other name with ValueError; an unreadable file fails with the reason it is unreadable.", "quantifier": "every file name, content and parser behaviour", "why_tests_cant": "File names are unbounded (several dots, dots in directories, hidden files).", "anchors": ["jsoned/uri_loader.py: DefaultLoader.load_file"]}
{"id": "C68", "title": "An import does not depend on earlier attempts", "statement": "Whether importing a module of the package succeeds does not depend on which imports of the package were attempted before, successfully or not.", "quantifier": "every module and every history of import statements", "why_tests_cant": "Histories of imports are unbounded and a test process has only one.", "anchors": ["jsoned/__init__.py", "jsoned/validators/__init__.py", "jsoned/validators/composition_validators.py"]}
{"id": "C69", "title": "Validating with a document means what the document says", "statement": "JsonSchema(document).validate(value) has exactly the outcome (acceptance, error, error path) of validating against the JSON value of the document, where an object with a local $ref counts as the object its pointer or anchor leads to (with the siblings the target does not define), everything inside arrays counts literally, and $anchor members are ignored; recursive references included.", "quantifier": "every document whose references are local and lead somewhere, every value, every vocabulary order and every string/format engine", "why_tests_cant": "Documents, reference chains and values are unbounded and recursive schemas unfold without bound.", "anchors": ["jsoned/json_core.py: JsonSchema.validate, LazyValidator", "jsoned/keywords/ref_keyword.py: JsonReference"]}
{"id": "C70", "title": "A verdict does not depend on what was loaded before", "statement": "Creating the same document in two different states of the process (other documents loaded, other nodes built, other registered ids) gives validators with identical outcomes on every value.", "quantifier": "every document with resolving local references, every two histories and every value", "why_tests_cant": "Histories and values are unbounded.", "anchors": ["jsoned/json_core.py: JsonSchema.load, JsonSchema.validate", "jsoned/json_store.py: JsonStore"]}
{"id": "C71", "title": "A schema without references is just its JSON value", "statement": "For a document without $ref and $anchor outside arrays, wrapping into node objects, loading and lazily compiling make no difference: validation has the outcome of applying the keywords to the plain JSON value.", "quantifier": "every such document whose ids are usable URIs, and every value", "why_tests_cant": "Documents and values are unbounded.", "anchors": ["jsoned/json_core.py: JsonSchema.validate, LazyValidator", "jsoned/types/json_complex.py"]}
{"id": "C72", "title": "A schema that is only a local $ref validates as its target", "statement": "A schema object whose only member is a $ref into its own document accepts and rejects every value exactly as the schema the reference leads to, with the same errors at the same paths, wherever it occurs.", "quantifier": "every document whose references point into it and whose ids are usable URIs, every resolving local reference in it (through chains, anchors and arrays), every value and path", "why_tests_cant": "Reference chains and values are unbounded.", "anchors": ["jsoned/keywords/ref_keyword.py: JsonReference", "jsoned/json_core.py: LazyValidator"]}
{"id": "C73", "title": "The boolean format accepts exactly the documented words and 0/1", "statement": "The boolean format accepts a value exactly when it is one of the fifteen lower-case words for true and false, or a boolean or number equal to 0 or 1; it answers for every value that is not an array or object, and raises TypeError for those.", "quantifier": "every JSON value (None, booleans, ints, floats, decimals, strings, arrays, objects)", "why_tests_cant": "The set of rejected strings and numbers is infinite.", "anchors": ["jsoned/validators/format_validators.py: validate_format_boolean, FALSY_EXPRESSION, TRUTHY_EXPRESSION"]}
{"id": "C74", "title": "The uri format accepts exactly scheme:rest", "statement": "The uri format accepts a text exactly when it is a scheme (a letter followed by letters, digits, +, - or .), a colon and then no white space.", "quantifier": "every string", "why_tests_cant": "Strings are unbounded and backtracking patterns accept more than they seem to.", "anchors": ["jsoned/validators/format_validators.py: validate_format_uri, URI_REGEX"]}
{"id": "C75", "title": "The url format accepts exactly http, https and ftp URLs with a public host", "statement": "The url format accepts a text exactly when it is an http, https or ftp URL with, in order, an optional user part, a host that is a public IPv4 address or a domain name with a top level of at least two letters, an optional port of 2 to 5 digits and an optional path without white space.", "quantifier": "every string", "why_tests_cant": "The pattern has nested optional parts, negative look-aheads and unbounded repetition; tests cover a few shapes.", "anchors": ["jsoned/validators/format_validators.py: validate_format_url, URL_REGEX"]}
{"id": "C76", "title": "The url format never lets a private network address through", "statement": "A URL accepted by the url format does not have a host in 10/8, 127/8, 169.254/16, 192.168/16 or 172.16/12.", "quantifier": "every string and every way a URL parser reads its host", "why_tests_cant": "An attacker picks the string; the pattern may read the host elsewhere than a URL parser does.", "anchors": ["jsoned/validators/format_validators.py: validate_format_url, URL_REGEX"]}
{"id": "C77", "title": "The format keyword applies the registered test, and the built-in names mean what they say", "statement": "A schema {\"format\": F} accepts a value exactly when the test registered under F answers true, rejects with that format's error at the value's path when it answers false, and is refused with a schema error when F is not registered. Each of the seventeen built-in names accepts exactly the texts of its grammar. A later registration of a name wins and leaves every other name alone.", "quantifier": "every schema with a lone format keyword, every name, value, path and history of registrations", "why_tests_cant": "Names, texts and registration histories are unbounded, and a name wired to another name's test is only seen on texts that tell them apart.", "anchors": ["jsoned/keywords/format_keyword.py", "jsoned/string_format.py: _StringFormat", "jsoned/validators/string_validators.py: StringFormatValidator"]}
{"id": "C78", "title": "Loading a document succeeds or fails whatever was loaded before", "statement": "If load() succeeds on a document that was just opened, it succeeds at any later moment too, whatever other documents were opened, loaded and read in between (the loader answering the same).", "quantifier": "every document, library of documents and history of calls", "why_tests_cant": "Histories are unbounded; the effect needs a particular earlier read.", "anchors": ["jsoned/json_core.py: JsonSchema.load, _process_node", "jsoned/keywords/ref_keyword.py: RefKeyword.apply", "jsoned/json_store.py: load_uri"]}
{"id": "C79", "title": "A reference to another document reads as its target there", "statement": "After any history of calls, a query leads to a node that reads, at every depth and ever after, as what the documents say: following a $ref into the named place of the named document, whose members come first, with the reference's own members that the target lacks.", "quantifier": "every library of documents whose references to other documents go to objects that are neither references nor have an id, every document opened, pointer, history before and history after", "why_tests_cant": "Chains of references run through any number of documents, loaded lazily in an order the history decides.", "anchors": ["jsoned/json_core.py: JsonSchema.query", "jsoned/keywords/ref_keyword.py: JsonReference, RefKeyword.apply", "jsoned/json_store.py: load_uri"]}
{"id": "C80", "title": "A reference reads the same before and after its target document is loaded", "statement": "key in node and node[key] give the same answer at every moment of a history without edits.", "quantifier": "every document, node and history of reading calls", "why_tests_cant": "Histories are unbounded; lazily loaded targets make the moment matter.", "anchors": ["jsoned/keywords/ref_keyword.py: JsonReference._value, __contains__, __getitem__"]}
{"id": "C81", "title": "Validation across documents follows what the documents say", "statement": "Validating with a document gives the outcome of its JSON value read with its references, also where a reference leads into another document that has not been loaded yet. It does not depend on which documents were opened, loaded or read before.", "quantifier": "every finite library of documents that refer to one another (cycles included) and all of whose references lead to something, every history of opening, loading, querying, reading and validating, every instance", "why_tests_cant": "Which document is loaded at what point of a validation depends on the instance and on everything that was read before. The claim must hold for every order.", "anchors": ["jsoned/json_core.py: JsonSchema.validate, LazyValidator", "jsoned/keywords/ref_keyword.py: JsonReference", "jsoned/json_store.py: JsonStore.load"]}
{"id": "C82", "title": "Two documents may refer to each other", "statement": "If two documents hold references to each other and no chain of references is circular, every reference in both reads as its target, whichever document is read first.", "quantifier": "every pair of documents, every order of reading", "why_tests_cant": "Needs a pair of documents and an order of reading; a wrong order recurses without end.", "anchors": ["jsoned/keywords/ref_keyword.py: JsonReference, RefKeyword.apply", "jsoned/json_core.py: JsonSchema.load, can_apply_keyword"]}
{"id": "C83", "title": "A referenced document is fetched at most once", "statement": "Once a document is in the store it stays, and the loader is not asked for it again: a loader that answers otherwise for stored documents makes no difference to anything later. The document of every reference is in the store.", "quantifier": "every loader, world, history of calls and pair of loaders that agree elsewhere", "why_tests_cant": "Quantifies over all loaders and all later histories.", "anchors": ["jsoned/json_store.py: load_uri", "jsoned/keywords/ref_keyword.py: RefKeyword.apply"]}
{"id": "C84", "title": "Data that looks like a keyword is left alone", "statement": "Members of const, default and examples values, and property names under properties, are data: a member named id, $id, $ref or $anchor there does not change how the document loads.", "quantifier": "every document", "why_tests_cant": "Every place of every document can hold such a member.", "anchors": ["jsoned/json_core.py: _process_node, can_apply_keyword", "jsoned/keywords/id_keyword.py: IdKeyword.apply"]}
{"id": "C85", "title": "A relative $ref is resolved against the base URI of its document", "statement": "In a document with $id B, a $ref R means the document at the URI that R resolves to against B.", "quantifier": "every document with an id and every reference text", "why_tests_cant": "All pairs of base and reference.", "anchors": ["jsoned/keywords/ref_keyword.py: RefKeyword.apply", "jsoned/uri.py: Uri.resolve"]}
{"id": "C86", "title": "Indexing a reference to an array gives the target's element", "statement": "If a $ref leads to an array, then reference[i] and a query through the reference give the target's element i.", "quantifier": "every loaded document, reference to an array, array and index", "why_tests_cant": "All arrays and indices; some arrays behave.", "anchors": ["jsoned/keywords/ref_keyword.py: JsonReference.__getitem__, __contains__"]}
{"id": "C87", "title": "Every rejection is justified", "statement": "If validation rejects a value, then some sub-schema applied to some part of the value has a keyword whose demand that part does not meet, and the error's class, parameters and path are those of that keyword and that part.", "quantifier": "every schema graph, vocabulary, value and starting path, and every pattern engine and format test that raises no ValidationError itself", "why_tests_cant": "All combinations of nested keywords, each of which may catch, re-raise or relabel an inner error.", "anchors": ["jsoned/validators: all validate methods", "jsoned/json_core.py: LazyValidator", "jsoned/errors/validation_error.py: ValidationError"]}
{"id": "C88", "title": "Loading succeeds exactly if every identifier and reference is usable", "statement": "A schema is an object or an array; anything else is refused at once. A document whose references are local loads if and only if every $ref is a URI with a well-formed pointer and every id outside enum is a URI without fragment that is absolute, or becomes so when resolved against the root's id (the root's must be absolute itself); otherwise loading raises ValueError, or AttributeError for text that is no URI. An array is left as it is.", "quantifier": "every document value, world (documents and store so far) and loader", "why_tests_cant": "All documents: the bad identifier may be at any depth, behind any number of good ones.", "anchors": ["jsoned/keywords/id_keyword.py: IdKeyword.apply", "jsoned/keywords/ref_keyword.py: RefKeyword.apply", "jsoned/json_store.py: JsonStore.add", "jsoned/json_core.py: JsonSchema.__init__, load"]}
{"id": "C89", "title": "enum with arrays and objects among its members", "statement": "A schema that is only an enum accepts an instance if and only if it equals one of the members as a JSON value (members may be arrays and objects of any depth), and otherwise rejects it with the enum error.", "quantifier": "every list of members, every instance, every vocabulary with enum", "why_tests_cant": "Members and instances nest to any depth, and what an earlier member does decides whether a later one is reached.", "anchors": ["jsoned/validators/core_validators.py: EnumValidator.validate", "jsoned/types/json_number.py: JsonNumber.__eq__", "jsoned/types/json_boolean.py: JsonBoolean.__eq__", "jsoned/keywords/enum_keyword.py: EnumKeyword.apply"]}
{"id": "C90", "title": "A query sees the document as it is", "statement": "A query answers what its text leads to in the document at that moment, whatever was asked, loaded or changed before.", "quantifier": "every history of queries, followed references and changes to the documents", "why_tests_cant": "The answer depends on the whole history: which query was made before, what has changed since, and how many other queries came in between.", "anchors": ["jsoned/json_core.py: JsonSchema.query", "jsoned/keywords/ref_keyword.py: JsonReference.fragment"]}
{"id": "C91", "title": "The identifier of a document is the same whenever it is asked for", "statement": "A document tells the same identifier each time it is asked, whatever is done with it and with other documents in between, and equal documents that declare no identifier tell the same one.", "quantifier": "every document, every history of loading, querying, following references, editing and asking", "why_tests_cant": "The identifier is computed on first use from the document as it is then and kept; whether it changes depends on what happened in between.", "anchors": ["jsoned/json_core.py: JsonSchema.id", "jsoned/json_core.py: JsonSchema.load", "jsoned/keywords/id_keyword.py: IdKeyword.apply", "jsoned/types/json_type.py: JsonType.__repr__"]}
{"id": "C92", "title": "Different documents have different default identifiers", "statement": "Two documents that declare no identifier tell the same one only if they hold the same JSON, unless the hash collides.", "quantifier": "every pair of documents, every hash function", "why_tests_cant": "The identifier hashes a printed form; that the printed form determines the document must hold for every pair of nested values.", "anchors": ["jsoned/json_core.py: JsonSchema.id", "jsoned/types/json_type.py: JsonType.__repr__", "jsoned/types/json_boolean.py: JsonBoolean.__repr__", "jsoned/keywords/ref_keyword.py: JsonReference.__repr__"]}
{"id": "C93", "title": "Asking for the identifier never fails", "statement": "A document can always be asked for its identifier, and then has one.", "quantifier": "every document", "why_tests_cant": "Strings range over all code points and may stand at any depth.", "anchors": ["jsoned/json_core.py: JsonSchema.id", "jsoned/types/json_type.py: JsonType.__repr__"]}
{"id": "C94", "title": "The ip-address-v4 format accepts exactly dotted quads", "statement": "A text passes the ip-address-v4 format exactly when it is four decimal numbers from 0 to 255, without leading zeros, separated by dots; a whole number passes exactly when it is between 0 and 2^32 - 1; every other text and number is refused without an exception.", "quantifier": "every text, every whole number, and every schema whose only keyword is this format", "why_tests_cant": "Texts are unbounded; a sample cannot show that no other text slips through the parser.", "anchors": ["jsoned/validators/format_validators.py: validate_format_ip_address_v4", "jsoned/string_format.py: _StringFormat"]}
{"id": "C95", "title": "The ip-address-v6 format accepts exactly RFC 4291 addresses", "statement": "A text passes the ip-address-v6 format exactly when it is an address of RFC 4291 (eight groups of one to four hexadecimal digits, or fewer around one double colon, the last two groups maybe written as an IPv4 address), maybe followed by a percent sign and a zone; the ip-address format accepts exactly the texts one of the two accepts.", "quantifier": "every text and every whole number", "why_tests_cant": "The grammar has unboundedly many near misses (double colons, group counts, embedded IPv4).", "anchors": ["jsoned/validators/format_validators.py: validate_format_ip_address_v6", "jsoned/validators/format_validators.py: validate_format_ip_address"]}
{"id": "C96", "title": "The uuid format accepts exactly UUIDs", "statement": "A text passes the uuid format exactly when it is a UUID in the form of RFC 4122: 8, 4, 4, 4 and 12 hexadecimal digits separated by hyphens.", "quantifier": "every text", "why_tests_cant": "Texts are unbounded; the parser removes characters before it looks at them.", "anchors": ["jsoned/validators/format_validators.py: validate_format_uuid"]}
{"id": "C97", "title": "The byte format accepts exactly base64", "statement": "A text passes the byte format exactly when it is the base64 encoding (RFC 4648) of some bytes.", "quantifier": "every text, every sequence of bytes", "why_tests_cant": "Byte sequences and texts are unbounded; the decoder is a state machine that skips characters.", "anchors": ["jsoned/validators/format_validators.py: validate_format_bytes"]}
{"id": "C98", "title": "The decimal format accepts exactly decimal numbers", "statement": "A text passes the decimal format exactly when it is a decimal number: an optional sign, digits with or without a point, an optional exponent, of a size a Decimal can hold.", "quantifier": "every text", "why_tests_cant": "Texts are unbounded; white space, underscores and foreign digits may stand anywhere.", "anchors": ["jsoned/validators/format_validators.py: validate_format_decimal"]}
{"id": "C99", "title": "Several threads may use one schema", "statement": "When several threads validate values against one loaded schema at the same time, each call has the outcome it would have alone, whatever the threads do in between, and every call that gets its turns comes to an end.", "quantifier": "every schema, every number of threads, every value of each thread, every interleaving of their steps, including the first use of the schema, when its validators are built", "why_tests_cant": "The number of interleavings is unbounded, and a run of a test sees one of them.", "anchors": ["jsoned/json_core.py: LazyValidator, JsonSchema.validator, JsonSchema.validate", "jsoned/validators/object_validators.py: ObjectValidator", "jsoned/keywords/properties_keyword.py: PropertiesKeyword.apply", "jsoned/keywords/pattern_properties_keyword.py: PatternPropertiesKeyword.apply"]}
{"id": "C100", "title": "The text and code of an error say where and what", "statement": "A rejection's text names the place of the rejected value and then states a demand of a keyword found in the schema for that place, with that keyword's operand, a demand the value does not meet; its code is the code of that keyword.", "quantifier": "every schema, every value, every rejection of validate, every member name on the way", "why_tests_cant": "The text is built from member names and operands by string formatting; tests see a few names and operands, and names containing braces are read as part of the template.", "anchors": ["jsoned/errors/validation_error.py: ValidationError.__init__, ValidationError.__str__", "jsoned/errors/*.py: code, message", "jsoned/validators/*.py: raise statements"]}
{"id": "C101", "title": "Several threads may use a document that is not loaded yet", "statement": "When several threads read or query one document at the same time, and none of them has loaded it before, each gets what it would have got alone, the document ends up as one thread would have left it, and every call that gets its turns comes to an end.", "quantifier": "every document, every number of threads, every query of each thread, every interleaving of their steps, including steps in the middle of loading", "why_tests_cant": "The number of interleavings is unbounded, and a run of a test sees one of them; loading rewrites the document in place, so that what one thread sees depends on how far another one has got.", "anchors": ["jsoned/json_core.py: JsonSchema.value, JsonSchema.load, JsonSchema.query, JsonSchema._process_node", "jsoned/keywords/ref_keyword.py: RefKeyword.apply, JsonReference", "jsoned/keywords/anchor_keyword.py: AnchorKeyword.apply", "jsoned/keywords/id_keyword.py: IdKeyword.apply", "jsoned/json_store.py: JsonStore"]}
{"id": "C102", "title": "== between wrapped values is equality of JSON values", "statement": "Two wrapped values compare equal exactly when they are the same JSON value: numbers of the same exact value, members in any order, elements in order; the comparison answers for any two values, the same in both directions, and it is an equivalence.", "quantifier": "every two (three) values of any size and depth, wherever they stand in their documents", "why_tests_cant": "Equality is recursive and dispatches on the kinds of both operands at every depth; tests try a few pairs.", "anchors": ["jsoned/types/json_type.py: JsonType.__eq__", "jsoned/types/json_number.py: JsonNumber.__eq__", "jsoned/types/json_boolean.py: JsonBoolean.__eq__", "jsoned/types/json_complex.py: JsonObject, JsonArray"]}
{"id": "C103", "title": "Wrapped values are ordered like the plain ones", "statement": "<, <=, > and >= between two wrapped values answer as for the plain values, for numbers by their value, strings by code points and arrays by their first difference; of two values of one kind exactly one of <, ==, > holds, a < b exactly when b > a, and the order is transitive, so that sorting makes sense.", "quantifier": "every two (three) values of any size and depth", "why_tests_cant": "The laws of an order range over all pairs and triples of values; tests try a few.", "anchors": ["jsoned/types/json_type.py: JsonType.__lt__, __le__, __gt__, __ge__", "jsoned/types/json_number.py: JsonNumber.__lt__, __le__, __gt__, __ge__", "jsoned/types/json_complex.py: JsonArray"]}
{"id": "C104", "title": "A wrapped value is true or false like the plain one", "statement": "bool() of a wrapped value is False exactly for null, false, zero, the empty string, the empty array and the empty object.", "quantifier": "every wrapped value other than a reference, wherever it stands", "why_tests_cant": "All values, and all decimal forms of zero.", "anchors": ["jsoned/types/json_type.py: JsonType.__bool__"]}
{"id": "C105", "title": "Arrays behave like lists", "statement": "Any sequence of reading, assigning and deleting elements and slices, len, iterating and `in` on a wrapped array gives the answers of the list of its JSON values, and every element read, also from a slice, is a wrapped value that knows its place.", "quantifier": "every array, every sequence of calls, every index and slice bound, every value looked for", "why_tests_cant": "All histories and all combinations of negative, missing and outlying slice bounds and steps.", "anchors": ["jsoned/types/json_complex.py: JsonArray.__getitem__, __setitem__, __delitem__, __contains__, __iter__, __len__"]}
{"id": "C106", "title": "A nested schema can be used through its own $id", "statement": "A schema nested in a document and named by its own $id is found in the store under that URI after the document is loaded, and querying it there gives what the document has at the corresponding place: the same members, references and anchors. Using it changes nothing in the document, and the URI keeps standing for the same schema.", "quantifier": "every document whose ids and anchors are usable, every nested $id in it, every pointer", "why_tests_cant": "All shapes of nested schemas, with references, anchors and further ids inside, at any depth.", "anchors": ["jsoned/keywords/id_keyword.py: IdKeyword.apply", "jsoned/json_core.py: JsonSchema.load, JsonSchema._process_node, JsonSchema.query", "jsoned/keywords/ref_keyword.py: JsonReference._value", "jsoned/keywords/anchor_keyword.py: AnchorKeyword.apply"]}
{"id": "C107", "title": "A reference reads its target as it is now", "statement": "While the members of loaded documents are set, replaced and deleted, a reference always reads as its target is at that moment: which members it has, what they are, and of which type it is.", "quantifier": "every set of loaded documents, every history of reads and edits, every reference", "why_tests_cant": "All interleavings of reads and edits, of any length, with chains of references between documents.", "anchors": ["jsoned/keywords/ref_keyword.py: JsonReference.fragment, JsonReference._ref_value, JsonReference._value, JsonReference.__contains__, JsonReference.__getitem__, JsonReference.type", "jsoned/types/json_complex.py: JsonObject.__setitem__, JsonObject.__delitem__"]}
{"id": "C108", "title": "Pointers are immutable sequences, compared by their tokens", "statement": "A JSON pointer, whether made of text, of a list of tokens or by slicing another, is a sequence of tokens fixed when it is made: indexing, slices, len, iteration, reversed, in, index, count and str all answer from those tokens, at any time. Two pointers with the same tokens are equal.", "quantifier": "every history of making pointers, asking them and changing the lists they were made of", "why_tests_cant": "All interleavings, with any number of pointers and lists that share tokens; all indices and slices.", "anchors": ["jsoned/json_pointer.py: JsonPointer.__init__, JsonPointer.__contains__, JsonPointer.__getitem__, JsonPointer.__len__, JsonPointer.__str__, JsonPointer.__iter__, JsonPointer.from_list"]}
{"id": "C109", "title": "Validation follows edits of the schema", "statement": "A schema is a wrapped JSON object, whose members can be assigned and deleted. Each call of validate judges the value by the schema as it is at the time of the call: the outcome is that of a schema object freshly made of the current content.", "quantifier": "every schema, every history of validate calls (any values, any outcomes, any remaining stack) interleaved with edits of any nodes of the schema", "why_tests_cant": "All histories: what an edit does depends on which parts of the schema earlier calls have already used.", "anchors": ["jsoned/json_core.py: JsonSchema.validate, LazyValidator._load_validator, LazyValidator.validate", "jsoned/types/json_complex.py: JsonObject.__setitem__, JsonObject.__delitem__, JsonArray.__setitem__, JsonArray.__delitem__"]}
{"id": "C110", "title": "Objects have the methods of a dict", "statement": "get, pop, popitem, clear, update and setdefault on a JsonObject do what they do on a dict whose values are the wrapped members: popitem takes the last member, setdefault returns the member that is stored, pop and del of an absent name raise KeyError.", "quantifier": "every object and every history of these calls together with reading, assigning and deleting members", "why_tests_cant": "Histories are unbounded, and the methods are inherited code that calls the class's own in loops.", "anchors": ["jsoned/types/json_complex.py: JsonObject (methods of collections.abc.MutableMapping)"]}
{"id": "C111", "title": "A document is loaded with the vocabulary asked for", "statement": "JsonStore.load(uri, vocabulary) returns a schema that uses this vocabulary, whatever was loaded before.", "quantifier": "every history of load and add calls, with and without vocabulary, every URI and every state of the files", "why_tests_cant": "The answer depends on all earlier calls for the same base URI.", "anchors": ["jsoned/json_store.py: JsonStore.load, load_uri, add", "jsoned/uri_loader.py: DefaultLoader.load, load_file", "jsoned/json_core.py: JsonSchema.__init__, validate"]}
{"id": "C112", "title": "A schema means what JSON Schema 2020-12 says", "statement": "Validating a JSON value with a schema accepts it exactly when the value is valid under the schema according to the JSON Schema 2020-12 specification, and rejects it with a validation error exactly when it is not.", "quantifier": "every schema without references, every JSON value, every vocabulary in which the keywords of the schema are in force", "why_tests_cant": "Agreement of two meanings ranges over all schemas, nested without bound, and over all values.", "anchors": ["jsoned/json_core.py: JsonSchema.validate, JsonSchema._process_node", "jsoned/keywords/", "jsoned/validators/", "jsoned/vocabulary.py: VALIDATOR_VOCABULARY"]}
{"id": "C113", "title": "Local references can be inlined", "statement": "Validating with a document gives, for every value, the same outcome (acceptance, the same validation error, or the same other error) as validating with the document in which every object with a local $ref outside arrays is replaced by the object the reference leads to, laid over the members that stand beside the reference.", "quantifier": "every document with local references that end at objects and do not go round in circles, every history before it is opened, every vocabulary, every value", "why_tests_cant": "It equates two outcomes for all documents, nestings of references and values.", "anchors": ["jsoned/keywords/ref_keyword.py: RefKeyword.apply", "jsoned/keywords/ref_keyword.py: JsonReference", "jsoned/json_core.py: JsonSchema.validate, LazyValidator"]}
{"id": "C114", "title": "References against the JSON Schema 2020-12 specification", "statement": "Validating with a document that contains local references accepts exactly the values that JSON Schema 2020-12 calls valid and rejects exactly the others: $ref applies the schema it refers to, in addition to the keywords beside it, wherever a schema may stand.", "quantifier": "every document with local references that do not go round in circles, every history before it is opened, every value", "why_tests_cant": "It compares the outcome with an independent semantics of schemas for all documents, reference placements and values.", "anchors": ["jsoned/keywords/ref_keyword.py: RefKeyword.apply", "jsoned/keywords/ref_keyword.py: JsonReference", "jsoned/json_pointer.py: JsonPointer", "jsoned/json_core.py: JsonSchema.validate"]}
{"id": "C115", "title": "Comparing URIs with texts and using them as keys", "statement": "A Uri equals another Uri, or a text, exactly when scheme, user, host, port, path, query and fragment of the two agree after normalisation (likewise an Authority for user, host and port). The comparison is symmetric and transitive, never fails, and things that are equal find each other as dict keys.", "quantifier": "all URIs, authorities, texts and other values, every hash function of texts", "why_tests_cant": "It is about all pairs and triples of spellings and every hash function.", "anchors": ["jsoned/uri.py: Uri.__eq__, Uri.__hash__, Uri.__repr__, Authority.__eq__, Authority.__str__"]}
{"id": "C116", "title": "Formats constrain texts only", "statement": "A format says something about texts only: a schema {\"format\": F} with a built-in F accepts every value that is not a text, and validating such a value never fails.", "quantifier": "the seventeen built-in formats and every null, boolean, whole number, array and object", "why_tests_cant": "Seventeen tests times unboundedly many numbers, arrays and objects, each going through str() and a grammar.", "anchors": ["jsoned/validators/format_validators.py", "jsoned/string_format.py", "jsoned/keywords/format_keyword.py"]}
{"id": "C117", "title": "Numbers that are not finite", "statement": "NaN and the infinities, which json.loads reads from the words NaN, Infinity and -Infinity, can stand in values and in schemas: minimum, maximum, multipleOf, const, enum and type still accept the value or raise a ValidationError, never anything else. The infinities lie beyond all numbers, and a NaN meets no bound and equals nothing. The same goes for the comparisons of wrapped numbers.", "quantifier": "every number keyword with every operand and every number, finite or not, every list of such keywords, and every pair of operands of a JsonNumber operator", "why_tests_cant": "A test picks a few operands; the claim is about each pairing of NaN, signaling NaN, infinity and finite number with every keyword, and finite numbers are unboundedly many.", "anchors": ["jsoned/validators/number_validators.py", "jsoned/validators/core_validators.py:TypeValidator,EnumValidator,ConstValidator", "jsoned/types/json_number.py:JsonNumber"]}
{"id": "C118", "title": "Documents that refer to themselves", "statement": "Validating with a document whose references go round in circles (a tree whose nodes refer to the document itself, lists, mutually recursive definitions) gives the outcome JSON Schema 2020-12 gives: the meaning of such a document is fixed by the standard as soon as no schema is applied again to the value it is being applied to, and the package accepts exactly the valid values and rejects exactly the others.", "quantifier": "every document whose local references, taken together with the keywords that apply a schema to the same value, do not go round in circles without descending into the value; every history before it is opened; every value", "why_tests_cant": "Both the depth of the value and the number of times a reference is followed are unbounded, and the outcome is compared with an independent semantics.", "anchors": ["jsoned/keywords/ref_keyword.py: RefKeyword.apply", "jsoned/keywords/ref_keyword.py: JsonReference", "jsoned/json_core.py: JsonSchema.validate"]}
{"id": "C119", "title": "Operands given by a reference", "statement": "The operand of any keyword may be given by a $ref to a place that holds it: validating with {k: {\"$ref\": t}} has the same outcome as with {k: x}, where x is the JSON value the reference leads to, whether x is a number, a text, a list, a boolean or an object, and whether the reference leads there at once or by way of other references.", "quantifier": "every keyword; every value x; every number of references on the way and every URI text in them; every JSON value validated; every behaviour of nested schemas, formats and regular expressions", "why_tests_cant": "The outcome depends on the keyword, on the kind of the operand, on the length of the way to it and on the value validated; iterating over a reference depends on which numbers occur in the target array.", "anchors": ["jsoned/keywords/ref_keyword.py: JsonReference", "jsoned/types/json_type.py: JsonType", "jsoned/types/json_number.py: JsonNumber", "jsoned/keywords/min_length_keyword.py: MinimumLengthKeyword", "jsoned/keywords/type_keyword.py: TypeKeyword", "jsoned/validators/core_validators.py: ConstValidator", "jsoned/validators/number_validators.py: NumberMinimumValidator"]}
{"id": "C120", "title": "A malformed schema is reported with its place and the keyword at fault", "statement": "When validate raises SchemaParseError, error.path is the JSON pointer, in the schema document, of an object with a keyword whose value cannot be used, and the text of the error tells that place, the keyword, and the kind of value found and expected.", "quantifier": "every schema document, also one that was edited before; every vocabulary in every order; every set of formats and every behaviour of regular expressions; every JSON value validated", "why_tests_cant": "Which object is reported depends on the value validated, on the nesting of the schema and on the order of the keywords; the path also depends on the edits made to the document before.", "anchors": ["jsoned/errors/schema_parse_error.py: SchemaParseError", "jsoned/json_core.py: LazyValidator", "jsoned/json_core.py: JsonSchema.validate", "jsoned/keywords/contains_keyword.py: ContainsKeyword", "jsoned/keywords/format_keyword.py: FormatKeyword", "jsoned/types/json_type.py: JsonType.path"]}
{"id": "C121", "title": "A document that is not there is reported with its URI and the file looked for", "statement": "When JsonStore.load is asked for a document that is not stored and whose file does not exist, it raises JsonLoadError; error.uri is the URI asked for, the text names that URI and the file the registered resolvers give for it, and nothing is stored. When that file exists, JsonLoadError is not raised.", "quantifier": "every state of the store and its loader, every registered resolver, every URI, every tree of directories and every working directory", "why_tests_cant": "All trees of directories and path texts (relative, absolute, with . and .. and empty parts), and all earlier calls, which the cache of the loader remembers.", "anchors": ["jsoned/errors/json_load_error.py: JsonLoadError.for_invalid_file", "jsoned/json_store.py: JsonStore.load_uri", "jsoned/uri_loader.py: DefaultLoader.resolve", "jsoned/uri_loader.py: DefaultLoader.load_file"]}
{"id": "C122", "title": "The most specific mapping is used", "statement": "Among the mappings of a MappableUriResolver that cover a URI, resolve uses the most specific one (the longest, counted in whole path segments) with the target given to it last, whatever the order in which the mappings were made.", "quantifier": "every sequence of map calls and every URI", "why_tests_cant": "The answer depends on the order of all earlier calls and on which of the texts are prefixes of each other.", "anchors": ["jsoned/uri_resolver.py: MappableUriResolver.map", "jsoned/uri_resolver.py: MappableUriResolver.resolve"]}
{"id": "C123", "title": "Registering a format takes effect at the next call", "statement": "After any sequence of schema.validate calls and registrations StringFormat[name] = test, the next schema.validate answers as a new schema object over the same document would, with each name meaning the test registered last under it. This includes a schema object that earlier failed to build because the format was unknown, and one built while the name meant another test.", "quantifier": "every schema document (of any view of it), every vocabulary of modelled keywords, every sequence of calls and registrations of any tests, every value and every stack left at each call", "why_tests_cant": "All interleavings of calls and registrations: what validators are built, half built or not yet built at the time of a registration depends on every earlier value and on the stack each call had.", "anchors": ["jsoned/string_format.py: _StringFormat.__setitem__", "jsoned/keywords/format_keyword.py: FormatKeyword.apply", "jsoned/validators/string_validators.py: StringFormatValidator.validate", "jsoned/json_core.py: JsonSchema.validate"]}
{"id": "C124", "title": "Registering a format leaves schemas alone that do not ask for it", "statement": "If no object of a schema document has a member format with a given text, then registering any test under that text (StringFormat[name] = test), whenever and as often as wanted, changes no outcome of schema.validate: neither acceptance, nor the error raised, nor its path.", "quantifier": "every schema document, every vocabulary of modelled keywords, every sequence of calls and registrations of names the document does not use, every test (also ones that raise), every value and every stack left at each call", "why_tests_cant": "The registry is one object shared by the whole process; that a library's registration cannot reach a schema that does not use it must hold for all documents, nested to any depth or cyclic through references, and all histories.", "anchors": ["jsoned/string_format.py: _StringFormat.__setitem__", "jsoned/keywords/format_keyword.py: FormatKeyword.apply", "jsoned/validators/string_validators.py: StringFormatValidator.validate", "jsoned/json_core.py: LazyValidator"]}
{"id": "C125", "title": "Schema objects do not affect one another", "statement": "In a process that makes any number of JsonSchema objects and calls validate on them in any order, with failures and format registrations in between, each call answers as if its schema object were the only one and this its first call, with the formats registered so far.", "quantifier": "every sequence of constructions, calls and registrations, every document (also several objects over one document), every value and every stack left at each call", "why_tests_cant": "All interleavings of uses of all schema objects; a shared default argument or class attribute that is written to would show only after particular sequences.", "anchors": ["jsoned/json_core.py: JsonSchema.validator", "jsoned/json_core.py: LazyValidator", "jsoned/validators/core_validators.py: Context", "jsoned/validators/object_validators.py: ObjectValidator", "jsoned/string_format.py: _StringFormat.__setitem__"]}
