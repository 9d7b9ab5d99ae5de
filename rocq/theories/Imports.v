(** What [import] does with the modules of the package.

    The interpreter below is Python's import system
    (importlib._bootstrap: _find_and_load, _find_and_load_unlocked,
    _load_unlocked, _handle_fromlist, and the IMPORT_FROM instruction); the
    table after it lists the top-level statements of every file of /repo/jsoned.

    Simplified: a module is the set of names its statements have bound so far;
    a class, function or assignment statement binds its names and cannot fail
    (the expressions in base lists, decorators and right-hand sides are not
    evaluated); a module outside the package (standard library, yaml, rfc3986)
    is installed, imports without effect and has every name asked of it;
    dunder attributes are never asked for; a module is loaded by one thread. *)
From Coq Require Import List String Bool.
Import ListNotations.
Local Open Scope string_scope.
Local Open Scope list_scope.

(** A dotted module name, split at the dots. *)
Definition mname := list string.

Fixpoint mname_eqb (a b : mname) : bool :=
  match a, b with
  | [], [] => true
  | x :: a', y :: b' => String.eqb x y && mname_eqb a' b'
  | _, _ => false
  end.

(** A top-level statement of a module. *)
Inductive istmt :=
| IFrom (m : mname) (names : list (string * string))  (* from m import a as b, ... *)
| IImport (m : mname) (bound : string)                (* import m *)
| IBind (names : list string).                        (* class, def, assignment *)

Record pymod := PyMod { pm_name : mname; pm_package : bool; pm_body : list istmt }.

(** sys.modules, for the modules of one package: each module that is loaded or
    being loaded, with the names bound in it so far. *)
Definition sysmods := list (mname * list string).

Fixpoint sget (m : mname) (s : sysmods) : option (list string) :=
  match s with
  | [] => None
  | (m', ns) :: s' => if mname_eqb m m' then Some ns else sget m s'
  end.

Definition sbind (m : mname) (n : string) (s : sysmods) : sysmods :=
  map (fun e => if mname_eqb m (fst e) then (fst e, n :: snd e) else e) s.

Definition sdel (m : mname) (s : sysmods) : sysmods :=
  filter (fun e => negb (mname_eqb m (fst e))) s.

Definition has (n : string) (ns : list string) : bool := existsb (String.eqb n) ns.

(** How an import ends. *)
Inductive iout :=
| IDone
| INoModule (m : mname)                   (* ModuleNotFoundError, name = m *)
| INoName (n : string) (m : mname)        (* ImportError: cannot import name n from m *)
| INoFuel.

Section Interp.
Variable table : list pymod.

(** The finder: the file of a module of the package. *)
Definition lookup (m : mname) : option pymod :=
  find (fun p => mname_eqb m (pm_name p)) table.

Definition inside_package (m : mname) : bool :=
  match m with top :: _ => String.eqb top "jsoned" | [] => false end.

Definition is_package (m : mname) : bool :=
  match lookup m with Some p => pm_package p | None => false end.

Section Rec.
(** importlib._bootstrap._find_and_load, for a strictly deeper import. *)
Variable load : sysmods -> mname -> sysmods * iout.

(** importlib._bootstrap._handle_fromlist: a name a package does not have is
    tried as a submodule; not finding that submodule is not an error here. *)
Fixpoint handle_fromlist (s : sysmods) (m : mname) (names : list (string * string))
  : sysmods * iout :=
  match names with
  | [] => (s, IDone)
  | (a, _) :: rest =>
      match sget m s with
      | Some ns =>
          if has a ns then handle_fromlist s m rest
          else match load s (m ++ [a]) with
               | (s', IDone) => handle_fromlist s' m rest
               | (s', INoModule m') =>
                   if mname_eqb m' (m ++ [a]) then handle_fromlist s' m rest
                   else (s', INoModule m')
               | r => r
               end
      | None => (s, INoModule m)
      end
  end.

(** The IMPORT_FROM instructions: an attribute of the module, or else the entry
    of sys.modules under the joined name; then the name is bound in [me]. *)
Fixpoint import_from (s : sysmods) (me m : mname) (names : list (string * string))
  : sysmods * iout :=
  match names with
  | [] => (s, IDone)
  | (a, b) :: rest =>
      match sget m s with
      | Some ns =>
          if has a ns then import_from (sbind me b s) me m rest
          else match sget (m ++ [a]) s with
               | Some _ => import_from (sbind me b s) me m rest
               | None => (s, INoName a m)
               end
      | None => (s, INoModule m)
      end
  end.

(** The statements of the module [me], in order, until one raises. *)
Fixpoint exec_body (s : sysmods) (me : mname) (body : list istmt) : sysmods * iout :=
  match body with
  | [] => (s, IDone)
  | IBind ns :: rest => exec_body (fold_left (fun s n => sbind me n s) ns s) me rest
  | IImport m b :: rest =>
      if inside_package m then
        match load s m with
        | (s', IDone) => exec_body (sbind me b s') me rest
        | r => r
        end
      else exec_body (sbind me b s) me rest
  | IFrom m names :: rest =>
      if inside_package m then
        match load s m with
        | (s1, IDone) =>
            match (if is_package m then handle_fromlist s1 m names else (s1, IDone)) with
            | (s2, IDone) =>
                match import_from s2 me m names with
                | (s3, IDone) => exec_body s3 me rest
                | r => r
                end
            | r => r
            end
        | r => r
        end
      else exec_body (fold_left (fun s n => sbind me (snd n) s) names s) me rest
  end.

(** importlib._bootstrap._find_and_load_unlocked after the parent is there:
    the module enters sys.modules, its body runs, a failing module is taken out
    again, a loaded one is bound in its parent. *)
Definition load_here (s : sysmods) (m parent : mname) : sysmods * iout :=
  match lookup m with
  | None => (s, INoModule m)
  | Some p =>
      match exec_body ((m, []) :: s) m (pm_body p) with
      | (s', IDone) => (sbind parent (last m "") s', IDone)
      | (s', r) => (sdel m s', r)
      end
  end.
End Rec.

(** importlib._bootstrap._find_and_load: sys.modules is asked for the full name
    first; only then is the parent package imported. *)
Fixpoint find_and_load (fuel : nat) (s : sysmods) (m : mname) : sysmods * iout :=
  match fuel with
  | 0 => (s, INoFuel)
  | S k =>
      match sget m s with
      | Some _ => (s, IDone)
      | None =>
          match removelast m with
          | [] => load_here (find_and_load k) s m []
          | parent =>
              match sget parent s with
              | Some _ => load_here (find_and_load k) s m parent
              | None =>
                  match find_and_load k s parent with
                  | (s', IDone) =>
                      match sget m s' with
                      | Some _ => (s', IDone)
                      | None => load_here (find_and_load k) s' m parent
                      end
                  | r => r
                  end
              end
          end
      end
  end.

(** What a user of the package can write: [import m], which ends by importing
    the top-level package (PyImport_ImportModuleLevelObject without a fromlist),
    or [from m import ...], which imports [m] itself and then asks for names. *)
Inductive request := ImportModule (m : mname) | FromModule (m : mname) (names : list string).

Definition request_module (r : request) : mname :=
  match r with ImportModule m => m | FromModule m _ => m end.

Definition run_request (fuel : nat) (s : sysmods) (r : request) : sysmods * iout :=
  match r with
  | ImportModule m =>
      match find_and_load fuel s m with
      | (s', IDone) => find_and_load fuel s' (firstn 1 m)
      | q => q
      end
  | FromModule m names =>
      match find_and_load fuel s m with
      | (s1, IDone) =>
          let ns := map (fun a => (a, a)) names in
          match (if is_package m then handle_fromlist (find_and_load fuel) s1 m ns
                 else (s1, IDone)) with
          | (s2, IDone) =>
              (* the names are bound in the user's own module, outside the package *)
              import_from s2 [] m ns
          | q => q
          end
      | q => q
      end
  end.
End Interp.

(* jsoned/__init__.py, top-level statements at lines 1, 2, 3, 4, 5, 6. *)
Definition m_jsoned : pymod :=
  PyMod ["jsoned"] true
    [ IFrom ["jsoned"; "json_core"] [("JsonSchema", "JsonSchema"); ("Keyword", "Keyword")];
      IFrom ["jsoned"; "json_pointer"] [("JsonPointer", "JsonPointer")];
      IFrom ["jsoned"; "json_store"] [("JsonStore", "JsonStore")];
      IFrom ["jsoned"; "uri"] [("Uri", "Uri")];
      IFrom ["jsoned"; "uri_loader"] [("UriLoader", "UriLoader"); ("DefaultLoader", "DefaultLoader")];
      IFrom ["jsoned"; "uri_resolver"] [("UriResolver", "UriResolver"); ("MappableUriResolver", "MappableUriResolver")] ].

(* jsoned/errors/__init__.py, top-level statements at lines 1, 3, 4, 5, 8, 9, 10, 12. *)
Definition m_errors : pymod :=
  PyMod ["jsoned"; "errors"] true
    [ IFrom ["jsoned"; "errors"; "array_validation_errors"] [("MinimumContainsValidationError", "MinimumContainsValidationError"); ("MaximumContainsValidationError", "MaximumContainsValidationError"); ("ContainsValidationError", "ContainsValidationError"); ("MinimumItemsValidationError", "MinimumItemsValidationError"); ("MaximumItemsValidationError", "MaximumItemsValidationError"); ("UniqueItemsValidationError", "UniqueItemsValidationError")];
      IFrom ["jsoned"; "errors"; "core_validation_errors"] [("TypeValidationError", "TypeValidationError"); ("EnumValidationError", "EnumValidationError"); ("ConstValidationError", "ConstValidationError")];
      IFrom ["jsoned"; "errors"; "json_load_error"] [("JsonLoadError", "JsonLoadError")];
      IFrom ["jsoned"; "errors"; "number_validation_error"] [("MinimumValidationError", "MinimumValidationError"); ("MaximumValidationError", "MaximumValidationError"); ("MultipleOfValidationError", "MultipleOfValidationError"); ("ComparisonValidationError", "ComparisonValidationError"); ("EqualityValidationError", "EqualityValidationError"); ("RangeValidationError", "RangeValidationError")];
      IFrom ["jsoned"; "errors"; "object_validation_errors"] [("RequiredPropertyValidationError", "RequiredPropertyValidationError"); ("DependentValidationError", "DependentValidationError"); ("MinimumPropertiesValidationError", "MinimumPropertiesValidationError"); ("MaximumPropertiesValidationError", "MaximumPropertiesValidationError")];
      IFrom ["jsoned"; "errors"; "schema_parse_error"] [("SchemaParseError", "SchemaParseError")];
      IFrom ["jsoned"; "errors"; "string_validation_errors"] [("MaximumLengthValidationError", "MaximumLengthValidationError"); ("FormatValidationError", "FormatValidationError"); ("LengthValidationError", "LengthValidationError"); ("MinimumLengthValidationError", "MinimumLengthValidationError")];
      IFrom ["jsoned"; "errors"; "validation_error"] [("ValidationError", "ValidationError")] ].

(* jsoned/errors/array_validation_errors.py, top-level statements at lines 1, 4, 8, 14, 20, 26, 32. *)
Definition m_errors_array_validation_errors : pymod :=
  PyMod ["jsoned"; "errors"; "array_validation_errors"] false
    [ IFrom ["jsoned"; "errors"; "validation_error"] [("ValidationError", "ValidationError")];
      IBind ["ContainsValidationError"];
      IBind ["MinimumContainsValidationError"];
      IBind ["MaximumContainsValidationError"];
      IBind ["MinimumItemsValidationError"];
      IBind ["MaximumItemsValidationError"];
      IBind ["UniqueItemsValidationError"] ].

(* jsoned/errors/core_validation_errors.py, top-level statements at lines 1, 2, 4, 6, 9, 15, 21. *)
Definition m_errors_core_validation_errors : pymod :=
  PyMod ["jsoned"; "errors"; "core_validation_errors"] false
    [ IFrom ["decimal"] [("Decimal", "Decimal")];
      IFrom ["typing"] [("List", "List"); ("Union", "Union")];
      IFrom ["jsoned"; "errors"; "validation_error"] [("ValidationError", "ValidationError")];
      IBind ["__all__"];
      IBind ["TypeValidationError"];
      IBind ["EnumValidationError"];
      IBind ["ConstValidationError"] ].

(* jsoned/errors/json_load_error.py, top-level statements at lines 1, 3, 5, 8. *)
Definition m_errors_json_load_error : pymod :=
  PyMod ["jsoned"; "errors"; "json_load_error"] false
    [ IFrom ["__future__"] [("annotations", "annotations")];
      IFrom ["jsoned"; "uri"] [("Uri", "Uri")];
      IBind ["__all__"];
      IBind ["JsonLoadError"] ].

(* jsoned/errors/number_validation_error.py, top-level statements at lines 1, 3, 6, 12, 17, 22, 26, 32. *)
Definition m_errors_number_validation_error : pymod :=
  PyMod ["jsoned"; "errors"; "number_validation_error"] false
    [ IFrom ["decimal"] [("Decimal", "Decimal")];
      IFrom ["jsoned"; "errors"; "validation_error"] [("ValidationError", "ValidationError")];
      IBind ["MultipleOfValidationError"];
      IBind ["ComparisonValidationError"];
      IBind ["EqualityValidationError"];
      IBind ["RangeValidationError"];
      IBind ["MinimumValidationError"];
      IBind ["MaximumValidationError"] ].

(* jsoned/errors/object_validation_errors.py, top-level statements at lines 1, 3, 6, 12, 16, 22, 28. *)
Definition m_errors_object_validation_errors : pymod :=
  PyMod ["jsoned"; "errors"; "object_validation_errors"] false
    [ IFrom ["typing"] [("List", "List")];
      IFrom ["jsoned"; "errors"; "validation_error"] [("ValidationError", "ValidationError")];
      IBind ["RequiredPropertyValidationError"];
      IBind ["ObjectSizeValidationError"];
      IBind ["MinimumPropertiesValidationError"];
      IBind ["MaximumPropertiesValidationError"];
      IBind ["DependentValidationError"] ].

(* jsoned/errors/schema_parse_error.py, top-level statements at lines 1, 3, 4, 5, 7, 10. *)
Definition m_errors_schema_parse_error : pymod :=
  PyMod ["jsoned"; "errors"; "schema_parse_error"] false
    [ IFrom ["__future__"] [("annotations", "annotations")];
      IFrom ["jsoned"; "json_pointer"] [("JsonPointer", "JsonPointer")];
      IFrom ["jsoned"; "types"; "json_complex"] [("JsonObject", "JsonObject")];
      IFrom ["jsoned"; "types"; "json_type"] [("JsonTypes", "JsonTypes")];
      IBind ["__all__"];
      IBind ["SchemaParseError"] ].

(* jsoned/errors/string_validation_errors.py, top-level statements at lines 1, 3, 5, 8, 14, 18, 24. *)
Definition m_errors_string_validation_errors : pymod :=
  PyMod ["jsoned"; "errors"; "string_validation_errors"] false
    [ IFrom ["abc"] [("ABC", "ABC")];
      IFrom ["jsoned"; "errors"; "validation_error"] [("ValidationError", "ValidationError")];
      IBind ["__all__"];
      IBind ["FormatValidationError"];
      IBind ["LengthValidationError"];
      IBind ["MinimumLengthValidationError"];
      IBind ["MaximumLengthValidationError"] ].

(* jsoned/errors/validation_error.py, top-level statements at lines 1, 3, 6. *)
Definition m_errors_validation_error : pymod :=
  PyMod ["jsoned"; "errors"; "validation_error"] false
    [ IFrom ["typing"] [("Any", "Any"); ("Dict", "Dict")];
      IBind ["__all__"];
      IBind ["ValidationError"] ].

(* jsoned/iso_datetime.py, top-level statements at lines 1, 2, 4, 8, 9, 14, 20, 52, 60, 88, 124, 159. *)
Definition m_iso_datetime : pymod :=
  PyMod ["jsoned"; "iso_datetime"] false
    [ IImport ["re"] "re";
      IFrom ["datetime"] [("date", "date"); ("datetime", "datetime"); ("time", "time"); ("timedelta", "timedelta"); ("timezone", "timezone")];
      IBind ["ISO_8601_DATETIME_REGEX"];
      IBind ["ISO_8601_DATE_REGEX"];
      IBind ["ISO_8601_TIME_REGEX"];
      IBind ["ISO_8601_TIME_DURATION_REGEX"];
      IBind ["parse_iso_datetime"];
      IBind ["parse_iso_date"];
      IBind ["parse_iso_duration"];
      IBind ["parse_iso_time"];
      IBind ["timedelta_to_iso_duration"];
      IBind ["__all__"] ].

(* jsoned/json_core.py, top-level statements at lines 1, 3, 4, 5, 6, 7, 9, 10, 11, 12, 13, 14, 16, 19, 23, 26, 36, 46, 64, 97. *)
Definition m_json_core : pymod :=
  PyMod ["jsoned"; "json_core"] false
    [ IFrom ["__future__"] [("annotations", "annotations")];
      IFrom ["abc"] [("ABC", "ABC"); ("abstractmethod", "abstractmethod")];
      IFrom ["functools"] [("lru_cache", "lru_cache")];
      IFrom ["hashlib"] [("sha256", "sha256")];
      IFrom ["typing"] [("Dict", "Dict"); ("overload", "overload"); ("Any", "Any"); ("Optional", "Optional")];
      IFrom ["typing"] [("List", "List"); ("Union", "Union")];
      IFrom ["jsoned"; "json_pointer"] [("JsonPointer", "JsonPointer")];
      IFrom ["jsoned"; "types"; "json_complex"] [("JsonObject", "JsonObject"); ("JsonArray", "JsonArray")];
      IFrom ["jsoned"; "types"; "json_type"] [("JsonType", "JsonType")];
      IFrom ["jsoned"; "uri"] [("Uri", "Uri")];
      IFrom ["jsoned"; "utils"] [("AnyJsonType", "AnyJsonType")];
      IFrom ["jsoned"; "validators"; "core_validators"] [("CompoundValidator", "CompoundValidator"); ("Validator", "Validator"); ("Context", "Context"); ("FailValidator", "FailValidator")];
      IBind ["__all__"];
      IBind ["Keyword"];
      IBind ["Vocabulary"];
      IBind ["ApplicatorKeyword"];
      IBind ["AssertionKeyword"];
      IBind ["can_apply_keyword"];
      IBind ["LazyValidator"];
      IBind ["JsonSchema"] ].

(* jsoned/json_pointer.py, top-level statements at lines 1, 2, 4, 7. *)
Definition m_json_pointer : pymod :=
  PyMod ["jsoned"; "json_pointer"] false
    [ IImport ["re"] "re";
      IFrom ["typing"] [("Sequence", "Sequence"); ("overload", "overload"); ("List", "List")];
      IBind ["__all__"];
      IBind ["JsonPointer"] ].

(* jsoned/json_store.py, top-level statements at lines 1, 3, 5, 6, 7, 8, 10, 13. *)
Definition m_json_store : pymod :=
  PyMod ["jsoned"; "json_store"] false
    [ IFrom ["__future__"] [("annotations", "annotations")];
      IFrom ["typing"] [("overload", "overload"); ("Dict", "Dict"); ("List", "List")];
      IFrom ["jsoned"; "errors"] [("JsonLoadError", "JsonLoadError")];
      IFrom ["jsoned"; "json_core"] [("JsonSchema", "JsonSchema"); ("Keyword", "Keyword")];
      IFrom ["jsoned"; "uri"] [("Uri", "Uri")];
      IFrom ["jsoned"; "uri_loader"] [("DefaultLoader", "DefaultLoader"); ("UriLoader", "UriLoader")];
      IBind ["__all__"];
      IBind ["JsonStore"] ].

(* jsoned/keywords/__init__.py, top-level statements at lines 1, 2, 3, 4, 5, 6, 7, 8, 9, 10, 11, 12, 13, 14, 15, 16, 17, 18, 19, 20, 21, 22, 23, 24, 25, 26, 27, 28, 29, 30, 31, 32, 33, 34, 35, 36, 37, 38. *)
Definition m_keywords : pymod :=
  PyMod ["jsoned"; "keywords"] true
    [ IFrom ["jsoned"; "keywords"; "additional_properties_keyword"] [("AdditionalPropertiesKeyword", "AdditionalPropertiesKeyword")];
      IFrom ["jsoned"; "keywords"; "all_of_keyword"] [("AllOfKeyword", "AllOfKeyword")];
      IFrom ["jsoned"; "keywords"; "anchor_keyword"] [("AnchorKeyword", "AnchorKeyword")];
      IFrom ["jsoned"; "keywords"; "any_of_keyword"] [("AnyOfKeyword", "AnyOfKeyword")];
      IFrom ["jsoned"; "keywords"; "const_keyword"] [("ConstKeyword", "ConstKeyword")];
      IFrom ["jsoned"; "keywords"; "contains_keyword"] [("ContainsKeyword", "ContainsKeyword")];
      IFrom ["jsoned"; "keywords"; "dependent_required_keyword"] [("DependentRequiredKeyword", "DependentRequiredKeyword")];
      IFrom ["jsoned"; "keywords"; "dependent_schemas_keyword"] [("DependentSchemasKeyword", "DependentSchemasKeyword")];
      IFrom ["jsoned"; "keywords"; "else_keyword"] [("ElseKeyword", "ElseKeyword")];
      IFrom ["jsoned"; "keywords"; "enum_keyword"] [("EnumKeyword", "EnumKeyword")];
      IFrom ["jsoned"; "keywords"; "exclusive_maximum_keyword"] [("ExclusiveMaximumKeyword", "ExclusiveMaximumKeyword")];
      IFrom ["jsoned"; "keywords"; "exclusive_minimum_keyword"] [("ExclusiveMinimumKeyword", "ExclusiveMinimumKeyword")];
      IFrom ["jsoned"; "keywords"; "format_keyword"] [("FormatKeyword", "FormatKeyword")];
      IFrom ["jsoned"; "keywords"; "id_keyword"] [("IdKeyword", "IdKeyword")];
      IFrom ["jsoned"; "keywords"; "if_keyword"] [("IfKeyword", "IfKeyword")];
      IFrom ["jsoned"; "keywords"; "items_keyword"] [("ItemsKeyword", "ItemsKeyword")];
      IFrom ["jsoned"; "keywords"; "max_items_keyword"] [("MaximumItemsKeyword", "MaximumItemsKeyword")];
      IFrom ["jsoned"; "keywords"; "max_length_keyword"] [("MaximumLengthKeyword", "MaximumLengthKeyword")];
      IFrom ["jsoned"; "keywords"; "max_properties_keyword"] [("MaximumPropertiesKeyword", "MaximumPropertiesKeyword")];
      IFrom ["jsoned"; "keywords"; "maximum_keyword"] [("MaximumKeyword", "MaximumKeyword")];
      IFrom ["jsoned"; "keywords"; "min_items_keyword"] [("MinimumItemsKeyword", "MinimumItemsKeyword")];
      IFrom ["jsoned"; "keywords"; "min_length_keyword"] [("MinimumLengthKeyword", "MinimumLengthKeyword")];
      IFrom ["jsoned"; "keywords"; "min_properties_keyword"] [("MinimumPropertiesKeyword", "MinimumPropertiesKeyword")];
      IFrom ["jsoned"; "keywords"; "minimum_keyword"] [("MinimumKeyword", "MinimumKeyword")];
      IFrom ["jsoned"; "keywords"; "multiple_of_keyword"] [("MultipleOfKeyword", "MultipleOfKeyword")];
      IFrom ["jsoned"; "keywords"; "not_keyword"] [("NotKeyword", "NotKeyword")];
      IFrom ["jsoned"; "keywords"; "one_of_keyword"] [("OneOfKeyword", "OneOfKeyword")];
      IFrom ["jsoned"; "keywords"; "pattern_keyword"] [("PatternKeyword", "PatternKeyword")];
      IFrom ["jsoned"; "keywords"; "pattern_properties_keyword"] [("PatternPropertiesKeyword", "PatternPropertiesKeyword")];
      IFrom ["jsoned"; "keywords"; "prefix_items_keyword"] [("PrefixItemsKeyword", "PrefixItemsKeyword")];
      IFrom ["jsoned"; "keywords"; "properties_keyword"] [("PropertiesKeyword", "PropertiesKeyword")];
      IFrom ["jsoned"; "keywords"; "property_names_keyword"] [("PropertyNamesKeyword", "PropertyNamesKeyword")];
      IFrom ["jsoned"; "keywords"; "ref_keyword"] [("RefKeyword", "RefKeyword")];
      IFrom ["jsoned"; "keywords"; "required_properties_keyword"] [("RequiredPropertiesKeyword", "RequiredPropertiesKeyword")];
      IFrom ["jsoned"; "keywords"; "then_keyword"] [("ThenKeyword", "ThenKeyword")];
      IFrom ["jsoned"; "keywords"; "type_keyword"] [("TypeKeyword", "TypeKeyword")];
      IFrom ["jsoned"; "keywords"; "unevaluated_properties_keyword"] [("UnevaluatedPropertiesKeyword", "UnevaluatedPropertiesKeyword")];
      IFrom ["jsoned"; "keywords"; "unique_items_keyword"] [("UniqueItemsKeyword", "UniqueItemsKeyword")] ].

(* jsoned/keywords/additional_properties_keyword.py, top-level statements at lines 1, 2, 3, 4, 5, 8. *)
Definition m_keywords_additional_properties_keyword : pymod :=
  PyMod ["jsoned"; "keywords"; "additional_properties_keyword"] false
    [ IFrom ["jsoned"; "errors"; "schema_parse_error"] [("SchemaParseError", "SchemaParseError")];
      IFrom ["jsoned"; "json_core"] [("AssertionKeyword", "AssertionKeyword"); ("JsonSchema", "JsonSchema"); ("LazyValidator", "LazyValidator")];
      IFrom ["jsoned"; "types"] [("JsonObject", "JsonObject"); ("JsonType", "JsonType")];
      IFrom ["jsoned"; "validators"; "core_validators"] [("CompoundValidator", "CompoundValidator"); ("FailValidator", "FailValidator")];
      IFrom ["jsoned"; "validators"; "object_validators"] [("ObjectValidator", "ObjectValidator")];
      IBind ["AdditionalPropertiesKeyword"] ].

(* jsoned/keywords/all_of_keyword.py, top-level statements at lines 1, 2, 3, 4, 5, 8. *)
Definition m_keywords_all_of_keyword : pymod :=
  PyMod ["jsoned"; "keywords"; "all_of_keyword"] false
    [ IFrom ["jsoned"; "errors"; "schema_parse_error"] [("SchemaParseError", "SchemaParseError")];
      IFrom ["jsoned"; "json_core"] [("AssertionKeyword", "AssertionKeyword"); ("JsonSchema", "JsonSchema"); ("LazyValidator", "LazyValidator")];
      IFrom ["jsoned"; "types"] [("JsonObject", "JsonObject"); ("JsonType", "JsonType")];
      IFrom ["jsoned"; "validators"] [("CompoundValidator", "CompoundValidator")];
      IFrom ["jsoned"; "validators"; "composition_validators"] [("AllOfValidator", "AllOfValidator")];
      IBind ["AllOfKeyword"] ].

(* jsoned/keywords/anchor_keyword.py, top-level statements at lines 1, 2, 3, 5, 8. *)
Definition m_keywords_anchor_keyword : pymod :=
  PyMod ["jsoned"; "keywords"; "anchor_keyword"] false
    [ IFrom ["jsoned"; "json_core"] [("ApplicatorKeyword", "ApplicatorKeyword"); ("JsonSchema", "JsonSchema")];
      IFrom ["jsoned"; "types"; "json_complex"] [("JsonObject", "JsonObject")];
      IFrom ["jsoned"; "types"; "json_type"] [("JsonType", "JsonType")];
      IBind ["__all__"];
      IBind ["AnchorKeyword"] ].

(* jsoned/keywords/any_of_keyword.py, top-level statements at lines 1, 2, 3, 4, 5, 8. *)
Definition m_keywords_any_of_keyword : pymod :=
  PyMod ["jsoned"; "keywords"; "any_of_keyword"] false
    [ IFrom ["jsoned"; "errors"; "schema_parse_error"] [("SchemaParseError", "SchemaParseError")];
      IFrom ["jsoned"; "json_core"] [("AssertionKeyword", "AssertionKeyword"); ("JsonSchema", "JsonSchema"); ("LazyValidator", "LazyValidator")];
      IFrom ["jsoned"; "types"] [("JsonObject", "JsonObject"); ("JsonType", "JsonType")];
      IFrom ["jsoned"; "validators"] [("CompoundValidator", "CompoundValidator")];
      IFrom ["jsoned"; "validators"; "composition_validators"] [("AnyOfValidator", "AnyOfValidator")];
      IBind ["AnyOfKeyword"] ].

(* jsoned/keywords/const_keyword.py, top-level statements at lines 1, 2, 3, 4, 7. *)
Definition m_keywords_const_keyword : pymod :=
  PyMod ["jsoned"; "keywords"; "const_keyword"] false
    [ IFrom ["jsoned"; "errors"; "schema_parse_error"] [("SchemaParseError", "SchemaParseError")];
      IFrom ["jsoned"; "json_core"] [("AssertionKeyword", "AssertionKeyword"); ("JsonSchema", "JsonSchema")];
      IFrom ["jsoned"; "types"] [("JsonObject", "JsonObject"); ("JsonType", "JsonType")];
      IFrom ["jsoned"; "validators"; "core_validators"] [("CompoundValidator", "CompoundValidator"); ("ConstValidator", "ConstValidator")];
      IBind ["ConstKeyword"] ].

(* jsoned/keywords/contains_keyword.py, top-level statements at lines 1, 2, 3, 4, 5, 8. *)
Definition m_keywords_contains_keyword : pymod :=
  PyMod ["jsoned"; "keywords"; "contains_keyword"] false
    [ IFrom ["jsoned"; "errors"; "schema_parse_error"] [("SchemaParseError", "SchemaParseError")];
      IFrom ["jsoned"; "json_core"] [("AssertionKeyword", "AssertionKeyword"); ("JsonSchema", "JsonSchema"); ("LazyValidator", "LazyValidator")];
      IFrom ["jsoned"; "types"] [("JsonObject", "JsonObject"); ("JsonType", "JsonType")];
      IFrom ["jsoned"; "validators"; "array_validators"] [("ArrayContainsValidator", "ArrayContainsValidator")];
      IFrom ["jsoned"; "validators"; "core_validators"] [("CompoundValidator", "CompoundValidator")];
      IBind ["ContainsKeyword"] ].

(* jsoned/keywords/dependent_required_keyword.py, top-level statements at lines 1, 2, 3, 4, 5, 8. *)
Definition m_keywords_dependent_required_keyword : pymod :=
  PyMod ["jsoned"; "keywords"; "dependent_required_keyword"] false
    [ IFrom ["jsoned"; "errors"; "schema_parse_error"] [("SchemaParseError", "SchemaParseError")];
      IFrom ["jsoned"; "json_core"] [("AssertionKeyword", "AssertionKeyword"); ("JsonSchema", "JsonSchema")];
      IFrom ["jsoned"; "types"] [("JsonObject", "JsonObject"); ("JsonType", "JsonType")];
      IFrom ["jsoned"; "validators"] [("CompoundValidator", "CompoundValidator")];
      IFrom ["jsoned"; "validators"; "object_validators"] [("DependentRequiredValidator", "DependentRequiredValidator")];
      IBind ["DependentRequiredKeyword"] ].

(* jsoned/keywords/dependent_schemas_keyword.py, top-level statements at lines 1, 2, 3, 4, 5, 8. *)
Definition m_keywords_dependent_schemas_keyword : pymod :=
  PyMod ["jsoned"; "keywords"; "dependent_schemas_keyword"] false
    [ IFrom ["jsoned"; "errors"; "schema_parse_error"] [("SchemaParseError", "SchemaParseError")];
      IFrom ["jsoned"; "json_core"] [("AssertionKeyword", "AssertionKeyword"); ("JsonSchema", "JsonSchema"); ("LazyValidator", "LazyValidator")];
      IFrom ["jsoned"; "types"] [("JsonObject", "JsonObject"); ("JsonType", "JsonType")];
      IFrom ["jsoned"; "validators"] [("CompoundValidator", "CompoundValidator")];
      IFrom ["jsoned"; "validators"; "object_validators"] [("DependentSchemasValidator", "DependentSchemasValidator")];
      IBind ["DependentSchemasKeyword"] ].

(* jsoned/keywords/else_keyword.py, top-level statements at lines 1, 2, 3, 4, 5, 8. *)
Definition m_keywords_else_keyword : pymod :=
  PyMod ["jsoned"; "keywords"; "else_keyword"] false
    [ IFrom ["jsoned"; "errors"; "schema_parse_error"] [("SchemaParseError", "SchemaParseError")];
      IFrom ["jsoned"; "json_core"] [("AssertionKeyword", "AssertionKeyword"); ("JsonSchema", "JsonSchema"); ("LazyValidator", "LazyValidator")];
      IFrom ["jsoned"; "types"] [("JsonObject", "JsonObject"); ("JsonType", "JsonType")];
      IFrom ["jsoned"; "validators"] [("CompoundValidator", "CompoundValidator")];
      IFrom ["jsoned"; "validators"; "composition_validators"] [("ConditionalValidator", "ConditionalValidator")];
      IBind ["ElseKeyword"] ].

(* jsoned/keywords/enum_keyword.py, top-level statements at lines 1, 2, 3, 4, 7. *)
Definition m_keywords_enum_keyword : pymod :=
  PyMod ["jsoned"; "keywords"; "enum_keyword"] false
    [ IFrom ["jsoned"; "errors"; "schema_parse_error"] [("SchemaParseError", "SchemaParseError")];
      IFrom ["jsoned"; "json_core"] [("AssertionKeyword", "AssertionKeyword"); ("JsonSchema", "JsonSchema")];
      IFrom ["jsoned"; "types"] [("JsonObject", "JsonObject"); ("JsonType", "JsonType")];
      IFrom ["jsoned"; "validators"; "core_validators"] [("EnumValidator", "EnumValidator"); ("CompoundValidator", "CompoundValidator")];
      IBind ["EnumKeyword"] ].

(* jsoned/keywords/exclusive_maximum_keyword.py, top-level statements at lines 1, 2, 3, 4, 5, 8. *)
Definition m_keywords_exclusive_maximum_keyword : pymod :=
  PyMod ["jsoned"; "keywords"; "exclusive_maximum_keyword"] false
    [ IFrom ["jsoned"; "errors"; "schema_parse_error"] [("SchemaParseError", "SchemaParseError")];
      IFrom ["jsoned"; "json_core"] [("AssertionKeyword", "AssertionKeyword"); ("JsonSchema", "JsonSchema")];
      IFrom ["jsoned"; "types"] [("JsonObject", "JsonObject"); ("JsonType", "JsonType")];
      IFrom ["jsoned"; "validators"; "core_validators"] [("CompoundValidator", "CompoundValidator")];
      IFrom ["jsoned"; "validators"; "number_validators"] [("NumberMaximumValidator", "NumberMaximumValidator")];
      IBind ["ExclusiveMaximumKeyword"] ].

(* jsoned/keywords/exclusive_minimum_keyword.py, top-level statements at lines 1, 2, 3, 4, 5, 8. *)
Definition m_keywords_exclusive_minimum_keyword : pymod :=
  PyMod ["jsoned"; "keywords"; "exclusive_minimum_keyword"] false
    [ IFrom ["jsoned"; "errors"; "schema_parse_error"] [("SchemaParseError", "SchemaParseError")];
      IFrom ["jsoned"; "json_core"] [("AssertionKeyword", "AssertionKeyword"); ("JsonSchema", "JsonSchema")];
      IFrom ["jsoned"; "types"] [("JsonObject", "JsonObject"); ("JsonType", "JsonType")];
      IFrom ["jsoned"; "validators"; "core_validators"] [("CompoundValidator", "CompoundValidator")];
      IFrom ["jsoned"; "validators"; "number_validators"] [("NumberMinimumValidator", "NumberMinimumValidator")];
      IBind ["ExclusiveMinimumKeyword"] ].

(* jsoned/keywords/format_keyword.py, top-level statements at lines 1, 2, 3, 4, 5, 6, 9. *)
Definition m_keywords_format_keyword : pymod :=
  PyMod ["jsoned"; "keywords"; "format_keyword"] false
    [ IFrom ["jsoned"; "errors"] [("SchemaParseError", "SchemaParseError")];
      IFrom ["jsoned"; "json_core"] [("AssertionKeyword", "AssertionKeyword"); ("JsonSchema", "JsonSchema")];
      IFrom ["jsoned"; "string_format"] [("StringFormat", "StringFormat")];
      IFrom ["jsoned"; "types"] [("JsonObject", "JsonObject"); ("JsonType", "JsonType")];
      IFrom ["jsoned"; "validators"; "core_validators"] [("CompoundValidator", "CompoundValidator")];
      IFrom ["jsoned"; "validators"; "string_validators"] [("StringFormatValidator", "StringFormatValidator")];
      IBind ["FormatKeyword"] ].

(* jsoned/keywords/id_keyword.py, top-level statements at lines 1, 3, 4, 5, 6, 7, 9, 12. *)
Definition m_keywords_id_keyword : pymod :=
  PyMod ["jsoned"; "keywords"; "id_keyword"] false
    [ IFrom ["typing"] [("List", "List"); ("Tuple", "Tuple")];
      IFrom ["jsoned"; "json_core"] [("ApplicatorKeyword", "ApplicatorKeyword"); ("JsonSchema", "JsonSchema")];
      IFrom ["jsoned"; "json_store"] [("JsonStore", "JsonStore")];
      IFrom ["jsoned"; "types"; "json_complex"] [("JsonObject", "JsonObject")];
      IFrom ["jsoned"; "types"; "json_type"] [("JsonType", "JsonType")];
      IFrom ["jsoned"; "uri"] [("Uri", "Uri")];
      IBind ["__all__"];
      IBind ["IdKeyword"] ].

(* jsoned/keywords/if_keyword.py, top-level statements at lines 1, 2, 3, 4, 5, 8. *)
Definition m_keywords_if_keyword : pymod :=
  PyMod ["jsoned"; "keywords"; "if_keyword"] false
    [ IFrom ["jsoned"; "errors"; "schema_parse_error"] [("SchemaParseError", "SchemaParseError")];
      IFrom ["jsoned"; "json_core"] [("AssertionKeyword", "AssertionKeyword"); ("JsonSchema", "JsonSchema"); ("LazyValidator", "LazyValidator")];
      IFrom ["jsoned"; "types"] [("JsonObject", "JsonObject"); ("JsonType", "JsonType")];
      IFrom ["jsoned"; "validators"] [("CompoundValidator", "CompoundValidator")];
      IFrom ["jsoned"; "validators"; "composition_validators"] [("ConditionalValidator", "ConditionalValidator")];
      IBind ["IfKeyword"] ].

(* jsoned/keywords/items_keyword.py, top-level statements at lines 1, 2, 3, 4, 5, 8. *)
Definition m_keywords_items_keyword : pymod :=
  PyMod ["jsoned"; "keywords"; "items_keyword"] false
    [ IFrom ["jsoned"; "errors"; "schema_parse_error"] [("SchemaParseError", "SchemaParseError")];
      IFrom ["jsoned"; "json_core"] [("AssertionKeyword", "AssertionKeyword"); ("JsonSchema", "JsonSchema"); ("LazyValidator", "LazyValidator")];
      IFrom ["jsoned"; "types"] [("JsonObject", "JsonObject"); ("JsonType", "JsonType")];
      IFrom ["jsoned"; "validators"; "array_validators"] [("ArrayValidator", "ArrayValidator")];
      IFrom ["jsoned"; "validators"; "core_validators"] [("CompoundValidator", "CompoundValidator")];
      IBind ["ItemsKeyword"] ].

(* jsoned/keywords/max_items_keyword.py, top-level statements at lines 1, 2, 3, 4, 5, 8. *)
Definition m_keywords_max_items_keyword : pymod :=
  PyMod ["jsoned"; "keywords"; "max_items_keyword"] false
    [ IFrom ["jsoned"; "errors"; "schema_parse_error"] [("SchemaParseError", "SchemaParseError")];
      IFrom ["jsoned"; "json_core"] [("AssertionKeyword", "AssertionKeyword"); ("JsonSchema", "JsonSchema")];
      IFrom ["jsoned"; "types"] [("JsonObject", "JsonObject"); ("JsonType", "JsonType")];
      IFrom ["jsoned"; "validators"; "array_validators"] [("ArrayMaximumLengthValidator", "ArrayMaximumLengthValidator")];
      IFrom ["jsoned"; "validators"; "core_validators"] [("CompoundValidator", "CompoundValidator")];
      IBind ["MaximumItemsKeyword"] ].

(* jsoned/keywords/max_length_keyword.py, top-level statements at lines 1, 2, 3, 4, 5, 8. *)
Definition m_keywords_max_length_keyword : pymod :=
  PyMod ["jsoned"; "keywords"; "max_length_keyword"] false
    [ IFrom ["jsoned"; "errors"; "schema_parse_error"] [("SchemaParseError", "SchemaParseError")];
      IFrom ["jsoned"; "json_core"] [("AssertionKeyword", "AssertionKeyword"); ("JsonSchema", "JsonSchema")];
      IFrom ["jsoned"; "types"] [("JsonObject", "JsonObject"); ("JsonType", "JsonType")];
      IFrom ["jsoned"; "validators"; "core_validators"] [("CompoundValidator", "CompoundValidator")];
      IFrom ["jsoned"; "validators"; "string_validators"] [("StringMaximumLengthValidator", "StringMaximumLengthValidator")];
      IBind ["MaximumLengthKeyword"] ].

(* jsoned/keywords/max_properties_keyword.py, top-level statements at lines 1, 2, 3, 4, 5, 8. *)
Definition m_keywords_max_properties_keyword : pymod :=
  PyMod ["jsoned"; "keywords"; "max_properties_keyword"] false
    [ IFrom ["jsoned"; "errors"; "schema_parse_error"] [("SchemaParseError", "SchemaParseError")];
      IFrom ["jsoned"; "json_core"] [("AssertionKeyword", "AssertionKeyword"); ("JsonSchema", "JsonSchema")];
      IFrom ["jsoned"; "types"] [("JsonObject", "JsonObject"); ("JsonType", "JsonType")];
      IFrom ["jsoned"; "validators"; "core_validators"] [("CompoundValidator", "CompoundValidator")];
      IFrom ["jsoned"; "validators"; "object_validators"] [("MaximumPropertiesValidator", "MaximumPropertiesValidator")];
      IBind ["MaximumPropertiesKeyword"] ].

(* jsoned/keywords/maximum_keyword.py, top-level statements at lines 1, 2, 3, 4, 5, 8. *)
Definition m_keywords_maximum_keyword : pymod :=
  PyMod ["jsoned"; "keywords"; "maximum_keyword"] false
    [ IFrom ["jsoned"; "errors"; "schema_parse_error"] [("SchemaParseError", "SchemaParseError")];
      IFrom ["jsoned"; "json_core"] [("AssertionKeyword", "AssertionKeyword"); ("JsonSchema", "JsonSchema")];
      IFrom ["jsoned"; "types"] [("JsonObject", "JsonObject"); ("JsonType", "JsonType")];
      IFrom ["jsoned"; "validators"; "core_validators"] [("CompoundValidator", "CompoundValidator")];
      IFrom ["jsoned"; "validators"; "number_validators"] [("NumberMaximumValidator", "NumberMaximumValidator")];
      IBind ["MaximumKeyword"] ].

(* jsoned/keywords/min_items_keyword.py, top-level statements at lines 1, 2, 3, 4, 5, 8. *)
Definition m_keywords_min_items_keyword : pymod :=
  PyMod ["jsoned"; "keywords"; "min_items_keyword"] false
    [ IFrom ["jsoned"; "errors"; "schema_parse_error"] [("SchemaParseError", "SchemaParseError")];
      IFrom ["jsoned"; "json_core"] [("AssertionKeyword", "AssertionKeyword"); ("JsonSchema", "JsonSchema")];
      IFrom ["jsoned"; "types"] [("JsonObject", "JsonObject"); ("JsonType", "JsonType")];
      IFrom ["jsoned"; "validators"; "array_validators"] [("ArrayMinimumLengthValidator", "ArrayMinimumLengthValidator")];
      IFrom ["jsoned"; "validators"; "core_validators"] [("CompoundValidator", "CompoundValidator")];
      IBind ["MinimumItemsKeyword"] ].

(* jsoned/keywords/min_length_keyword.py, top-level statements at lines 1, 2, 3, 4, 5, 8. *)
Definition m_keywords_min_length_keyword : pymod :=
  PyMod ["jsoned"; "keywords"; "min_length_keyword"] false
    [ IFrom ["jsoned"; "errors"; "schema_parse_error"] [("SchemaParseError", "SchemaParseError")];
      IFrom ["jsoned"; "json_core"] [("AssertionKeyword", "AssertionKeyword"); ("JsonSchema", "JsonSchema")];
      IFrom ["jsoned"; "types"] [("JsonObject", "JsonObject"); ("JsonType", "JsonType")];
      IFrom ["jsoned"; "validators"; "core_validators"] [("CompoundValidator", "CompoundValidator")];
      IFrom ["jsoned"; "validators"; "string_validators"] [("StringMinimumLengthValidator", "StringMinimumLengthValidator")];
      IBind ["MinimumLengthKeyword"] ].

(* jsoned/keywords/min_properties_keyword.py, top-level statements at lines 1, 2, 3, 4, 5, 8. *)
Definition m_keywords_min_properties_keyword : pymod :=
  PyMod ["jsoned"; "keywords"; "min_properties_keyword"] false
    [ IFrom ["jsoned"; "errors"; "schema_parse_error"] [("SchemaParseError", "SchemaParseError")];
      IFrom ["jsoned"; "json_core"] [("AssertionKeyword", "AssertionKeyword"); ("JsonSchema", "JsonSchema")];
      IFrom ["jsoned"; "types"] [("JsonObject", "JsonObject"); ("JsonType", "JsonType")];
      IFrom ["jsoned"; "validators"; "core_validators"] [("CompoundValidator", "CompoundValidator")];
      IFrom ["jsoned"; "validators"; "object_validators"] [("MinimumPropertiesValidator", "MinimumPropertiesValidator")];
      IBind ["MinimumPropertiesKeyword"] ].

(* jsoned/keywords/minimum_keyword.py, top-level statements at lines 1, 2, 3, 4, 5, 8. *)
Definition m_keywords_minimum_keyword : pymod :=
  PyMod ["jsoned"; "keywords"; "minimum_keyword"] false
    [ IFrom ["jsoned"; "errors"; "schema_parse_error"] [("SchemaParseError", "SchemaParseError")];
      IFrom ["jsoned"; "json_core"] [("AssertionKeyword", "AssertionKeyword"); ("JsonSchema", "JsonSchema")];
      IFrom ["jsoned"; "types"] [("JsonObject", "JsonObject"); ("JsonType", "JsonType")];
      IFrom ["jsoned"; "validators"; "core_validators"] [("CompoundValidator", "CompoundValidator")];
      IFrom ["jsoned"; "validators"; "number_validators"] [("NumberMinimumValidator", "NumberMinimumValidator")];
      IBind ["MinimumKeyword"] ].

(* jsoned/keywords/multiple_of_keyword.py, top-level statements at lines 1, 2, 3, 4, 5, 8. *)
Definition m_keywords_multiple_of_keyword : pymod :=
  PyMod ["jsoned"; "keywords"; "multiple_of_keyword"] false
    [ IFrom ["jsoned"; "errors"; "schema_parse_error"] [("SchemaParseError", "SchemaParseError")];
      IFrom ["jsoned"; "json_core"] [("AssertionKeyword", "AssertionKeyword"); ("JsonSchema", "JsonSchema")];
      IFrom ["jsoned"; "types"] [("JsonObject", "JsonObject"); ("JsonType", "JsonType")];
      IFrom ["jsoned"; "validators"; "core_validators"] [("CompoundValidator", "CompoundValidator")];
      IFrom ["jsoned"; "validators"; "number_validators"] [("NumberMultipleOfValidator", "NumberMultipleOfValidator")];
      IBind ["MultipleOfKeyword"] ].

(* jsoned/keywords/not_keyword.py, top-level statements at lines 1, 2, 3, 4, 5, 8. *)
Definition m_keywords_not_keyword : pymod :=
  PyMod ["jsoned"; "keywords"; "not_keyword"] false
    [ IFrom ["jsoned"; "errors"; "schema_parse_error"] [("SchemaParseError", "SchemaParseError")];
      IFrom ["jsoned"; "json_core"] [("AssertionKeyword", "AssertionKeyword"); ("JsonSchema", "JsonSchema"); ("LazyValidator", "LazyValidator")];
      IFrom ["jsoned"; "types"] [("JsonObject", "JsonObject"); ("JsonType", "JsonType")];
      IFrom ["jsoned"; "validators"] [("CompoundValidator", "CompoundValidator")];
      IFrom ["jsoned"; "validators"; "composition_validators"] [("NotValidator", "NotValidator")];
      IBind ["NotKeyword"] ].

(* jsoned/keywords/one_of_keyword.py, top-level statements at lines 1, 2, 3, 4, 5, 8. *)
Definition m_keywords_one_of_keyword : pymod :=
  PyMod ["jsoned"; "keywords"; "one_of_keyword"] false
    [ IFrom ["jsoned"; "errors"; "schema_parse_error"] [("SchemaParseError", "SchemaParseError")];
      IFrom ["jsoned"; "json_core"] [("AssertionKeyword", "AssertionKeyword"); ("JsonSchema", "JsonSchema"); ("LazyValidator", "LazyValidator")];
      IFrom ["jsoned"; "types"] [("JsonObject", "JsonObject"); ("JsonType", "JsonType")];
      IFrom ["jsoned"; "validators"] [("CompoundValidator", "CompoundValidator")];
      IFrom ["jsoned"; "validators"; "composition_validators"] [("OneOfValidator", "OneOfValidator")];
      IBind ["OneOfKeyword"] ].

(* jsoned/keywords/pattern_keyword.py, top-level statements at lines 1, 2, 3, 4, 5, 8. *)
Definition m_keywords_pattern_keyword : pymod :=
  PyMod ["jsoned"; "keywords"; "pattern_keyword"] false
    [ IFrom ["jsoned"; "errors"; "schema_parse_error"] [("SchemaParseError", "SchemaParseError")];
      IFrom ["jsoned"; "json_core"] [("AssertionKeyword", "AssertionKeyword"); ("JsonSchema", "JsonSchema")];
      IFrom ["jsoned"; "types"] [("JsonObject", "JsonObject"); ("JsonType", "JsonType")];
      IFrom ["jsoned"; "validators"; "core_validators"] [("CompoundValidator", "CompoundValidator")];
      IFrom ["jsoned"; "validators"; "string_validators"] [("StringPatternValidator", "StringPatternValidator")];
      IBind ["PatternKeyword"] ].

(* jsoned/keywords/pattern_properties_keyword.py, top-level statements at lines 1, 2, 3, 4, 5, 8. *)
Definition m_keywords_pattern_properties_keyword : pymod :=
  PyMod ["jsoned"; "keywords"; "pattern_properties_keyword"] false
    [ IFrom ["jsoned"; "errors"; "schema_parse_error"] [("SchemaParseError", "SchemaParseError")];
      IFrom ["jsoned"; "json_core"] [("AssertionKeyword", "AssertionKeyword"); ("JsonSchema", "JsonSchema"); ("LazyValidator", "LazyValidator")];
      IFrom ["jsoned"; "types"] [("JsonObject", "JsonObject"); ("JsonType", "JsonType")];
      IFrom ["jsoned"; "validators"; "object_validators"] [("ObjectValidator", "ObjectValidator")];
      IFrom ["jsoned"; "validators"; "core_validators"] [("CompoundValidator", "CompoundValidator")];
      IBind ["PatternPropertiesKeyword"] ].

(* jsoned/keywords/prefix_items_keyword.py, top-level statements at lines 1, 2, 3, 4, 5, 8. *)
Definition m_keywords_prefix_items_keyword : pymod :=
  PyMod ["jsoned"; "keywords"; "prefix_items_keyword"] false
    [ IFrom ["jsoned"; "errors"; "schema_parse_error"] [("SchemaParseError", "SchemaParseError")];
      IFrom ["jsoned"; "json_core"] [("AssertionKeyword", "AssertionKeyword"); ("JsonSchema", "JsonSchema"); ("LazyValidator", "LazyValidator")];
      IFrom ["jsoned"; "types"] [("JsonObject", "JsonObject"); ("JsonType", "JsonType")];
      IFrom ["jsoned"; "validators"; "array_validators"] [("ArrayValidator", "ArrayValidator")];
      IFrom ["jsoned"; "validators"; "core_validators"] [("CompoundValidator", "CompoundValidator")];
      IBind ["PrefixItemsKeyword"] ].

(* jsoned/keywords/properties_keyword.py, top-level statements at lines 1, 2, 3, 4, 5, 8. *)
Definition m_keywords_properties_keyword : pymod :=
  PyMod ["jsoned"; "keywords"; "properties_keyword"] false
    [ IFrom ["jsoned"; "errors"; "schema_parse_error"] [("SchemaParseError", "SchemaParseError")];
      IFrom ["jsoned"; "json_core"] [("AssertionKeyword", "AssertionKeyword"); ("JsonSchema", "JsonSchema"); ("LazyValidator", "LazyValidator")];
      IFrom ["jsoned"; "types"] [("JsonObject", "JsonObject"); ("JsonType", "JsonType")];
      IFrom ["jsoned"; "validators"; "core_validators"] [("CompoundValidator", "CompoundValidator")];
      IFrom ["jsoned"; "validators"; "object_validators"] [("ObjectValidator", "ObjectValidator")];
      IBind ["PropertiesKeyword"] ].

(* jsoned/keywords/property_names_keyword.py, top-level statements at lines 1, 2, 3, 4, 5, 8. *)
Definition m_keywords_property_names_keyword : pymod :=
  PyMod ["jsoned"; "keywords"; "property_names_keyword"] false
    [ IFrom ["jsoned"; "errors"; "schema_parse_error"] [("SchemaParseError", "SchemaParseError")];
      IFrom ["jsoned"; "json_core"] [("AssertionKeyword", "AssertionKeyword"); ("JsonSchema", "JsonSchema"); ("LazyValidator", "LazyValidator")];
      IFrom ["jsoned"; "types"] [("JsonObject", "JsonObject"); ("JsonType", "JsonType")];
      IFrom ["jsoned"; "validators"; "core_validators"] [("CompoundValidator", "CompoundValidator")];
      IFrom ["jsoned"; "validators"; "object_validators"] [("ObjectValidator", "ObjectValidator")];
      IBind ["PropertyNamesKeyword"] ].

(* jsoned/keywords/ref_keyword.py, top-level statements at lines 1, 2, 4, 5, 6, 7, 8, 9, 11, 14, 84. *)
Definition m_keywords_ref_keyword : pymod :=
  PyMod ["jsoned"; "keywords"; "ref_keyword"] false
    [ IFrom ["functools"] [("cached_property", "cached_property")];
      IFrom ["typing"] [("Set", "Set"); ("List", "List")];
      IFrom ["jsoned"; "json_core"] [("ApplicatorKeyword", "ApplicatorKeyword"); ("JsonSchema", "JsonSchema")];
      IFrom ["jsoned"; "json_pointer"] [("JsonPointer", "JsonPointer")];
      IFrom ["jsoned"; "json_store"] [("JsonStore", "JsonStore")];
      IFrom ["jsoned"; "types"; "json_complex"] [("JsonObject", "JsonObject")];
      IFrom ["jsoned"; "types"; "json_type"] [("JsonType", "JsonType")];
      IFrom ["jsoned"; "uri"] [("Uri", "Uri")];
      IBind ["__all__"];
      IBind ["JsonReference"];
      IBind ["RefKeyword"] ].

(* jsoned/keywords/required_properties_keyword.py, top-level statements at lines 1, 2, 3, 4, 5, 8. *)
Definition m_keywords_required_properties_keyword : pymod :=
  PyMod ["jsoned"; "keywords"; "required_properties_keyword"] false
    [ IFrom ["jsoned"; "errors"; "schema_parse_error"] [("SchemaParseError", "SchemaParseError")];
      IFrom ["jsoned"; "json_core"] [("AssertionKeyword", "AssertionKeyword"); ("JsonSchema", "JsonSchema")];
      IFrom ["jsoned"; "types"] [("JsonObject", "JsonObject"); ("JsonType", "JsonType")];
      IFrom ["jsoned"; "validators"; "core_validators"] [("CompoundValidator", "CompoundValidator")];
      IFrom ["jsoned"; "validators"; "object_validators"] [("RequiredPropertiesValidator", "RequiredPropertiesValidator")];
      IBind ["RequiredPropertiesKeyword"] ].

(* jsoned/keywords/then_keyword.py, top-level statements at lines 1, 2, 3, 4, 5, 8. *)
Definition m_keywords_then_keyword : pymod :=
  PyMod ["jsoned"; "keywords"; "then_keyword"] false
    [ IFrom ["jsoned"; "errors"; "schema_parse_error"] [("SchemaParseError", "SchemaParseError")];
      IFrom ["jsoned"; "json_core"] [("AssertionKeyword", "AssertionKeyword"); ("JsonSchema", "JsonSchema"); ("LazyValidator", "LazyValidator")];
      IFrom ["jsoned"; "types"] [("JsonObject", "JsonObject"); ("JsonType", "JsonType")];
      IFrom ["jsoned"; "validators"] [("CompoundValidator", "CompoundValidator")];
      IFrom ["jsoned"; "validators"; "composition_validators"] [("ConditionalValidator", "ConditionalValidator")];
      IBind ["ThenKeyword"] ].

(* jsoned/keywords/type_keyword.py, top-level statements at lines 1, 2, 3, 4, 5, 8. *)
Definition m_keywords_type_keyword : pymod :=
  PyMod ["jsoned"; "keywords"; "type_keyword"] false
    [ IFrom ["jsoned"; "errors"; "schema_parse_error"] [("SchemaParseError", "SchemaParseError")];
      IFrom ["jsoned"; "json_core"] [("AssertionKeyword", "AssertionKeyword"); ("JsonSchema", "JsonSchema")];
      IFrom ["jsoned"; "types"] [("JsonObject", "JsonObject"); ("JsonType", "JsonType")];
      IFrom ["jsoned"; "validators"; "core_validators"] [("CompoundValidator", "CompoundValidator")];
      IFrom ["jsoned"; "validators"; "core_validators"] [("TypeValidator", "TypeValidator")];
      IBind ["TypeKeyword"] ].

(* jsoned/keywords/unevaluated_properties_keyword.py, top-level statements at lines 1, 2, 3, 4, 5, 8. *)
Definition m_keywords_unevaluated_properties_keyword : pymod :=
  PyMod ["jsoned"; "keywords"; "unevaluated_properties_keyword"] false
    [ IFrom ["jsoned"; "errors"; "schema_parse_error"] [("SchemaParseError", "SchemaParseError")];
      IFrom ["jsoned"; "json_core"] [("AssertionKeyword", "AssertionKeyword"); ("JsonSchema", "JsonSchema")];
      IFrom ["jsoned"; "types"] [("JsonObject", "JsonObject"); ("JsonType", "JsonType")];
      IFrom ["jsoned"; "validators"; "core_validators"] [("CompoundValidator", "CompoundValidator"); ("FailValidator", "FailValidator")];
      IFrom ["jsoned"; "validators"; "object_validators"] [("ObjectValidator", "ObjectValidator")];
      IBind ["UnevaluatedPropertiesKeyword"] ].

(* jsoned/keywords/unique_items_keyword.py, top-level statements at lines 1, 2, 3, 4, 5, 8. *)
Definition m_keywords_unique_items_keyword : pymod :=
  PyMod ["jsoned"; "keywords"; "unique_items_keyword"] false
    [ IFrom ["jsoned"; "errors"; "schema_parse_error"] [("SchemaParseError", "SchemaParseError")];
      IFrom ["jsoned"; "json_core"] [("AssertionKeyword", "AssertionKeyword"); ("JsonSchema", "JsonSchema")];
      IFrom ["jsoned"; "types"] [("JsonObject", "JsonObject"); ("JsonType", "JsonType")];
      IFrom ["jsoned"; "validators"; "array_validators"] [("ArrayUniqueValidators", "ArrayUniqueValidators")];
      IFrom ["jsoned"; "validators"; "core_validators"] [("CompoundValidator", "CompoundValidator")];
      IBind ["UniqueItemsKeyword"] ].

(* jsoned/string_format.py, top-level statements at lines 1, 3, 24, 27, 79. *)
Definition m_string_format : pymod :=
  PyMod ["jsoned"; "string_format"] false
    [ IFrom ["typing"] [("Callable", "Callable")];
      IFrom ["jsoned"; "validators"; "format_validators"] [("validate_format_boolean", "validate_format_boolean"); ("validate_format_bytes", "validate_format_bytes"); ("validate_format_date", "validate_format_date"); ("validate_format_datetime", "validate_format_datetime"); ("validate_format_decimal", "validate_format_decimal"); ("validate_format_email", "validate_format_email"); ("validate_format_hostname", "validate_format_hostname"); ("validate_format_ip_address", "validate_format_ip_address"); ("validate_format_ip_address_v4", "validate_format_ip_address_v4"); ("validate_format_ip_address_v6", "validate_format_ip_address_v6"); ("validate_format_pattern", "validate_format_pattern"); ("validate_format_semver", "validate_format_semver"); ("validate_format_time", "validate_format_time"); ("validate_format_time_duration", "validate_format_time_duration"); ("validate_format_uri", "validate_format_uri"); ("validate_format_url", "validate_format_url"); ("validate_format_uuid", "validate_format_uuid")];
      IBind ["__all__"];
      IBind ["_StringFormat"];
      IBind ["StringFormat"] ].

(* jsoned/types/__init__.py, top-level statements at lines 1, 2, 3, 4, 5, 6. *)
Definition m_types : pymod :=
  PyMod ["jsoned"; "types"] true
    [ IFrom ["jsoned"; "types"; "json_boolean"] [("JsonBoolean", "JsonBoolean")];
      IFrom ["jsoned"; "types"; "json_null"] [("JsonNull", "JsonNull")];
      IFrom ["jsoned"; "types"; "json_number"] [("JsonNumber", "JsonNumber")];
      IFrom ["jsoned"; "types"; "json_complex"] [("JsonObject", "JsonObject"); ("JsonArray", "JsonArray")];
      IFrom ["jsoned"; "types"; "json_string"] [("JsonString", "JsonString")];
      IFrom ["jsoned"; "types"; "json_type"] [("JsonType", "JsonType")] ].

(* jsoned/types/json_boolean.py, top-level statements at lines 1, 3, 5, 7, 10. *)
Definition m_types_json_boolean : pymod :=
  PyMod ["jsoned"; "types"; "json_boolean"] false
    [ IFrom ["__future__"] [("annotations", "annotations")];
      IFrom ["typing"] [("overload", "overload")];
      IFrom ["jsoned"; "types"; "json_type"] [("JsonType", "JsonType")];
      IBind ["__all__"];
      IBind ["JsonBoolean"] ].

(* jsoned/types/json_complex.py, top-level statements at lines 1, 2, 4, 5, 6, 7, 9, 12, 55, 84, 94. *)
Definition m_types_json_complex : pymod :=
  PyMod ["jsoned"; "types"; "json_complex"] false
    [ IFrom ["decimal"] [("Decimal", "Decimal")];
      IFrom ["typing"] [("List", "List"); ("MutableMapping", "MutableMapping"); ("Iterable", "Iterable"); ("Mapping", "Mapping"); ("Any", "Any")];
      IFrom ["jsoned"; "types"; "json_number"] [("JsonNumber", "JsonNumber")];
      IFrom ["jsoned"; "types"; "json_string"] [("JsonString", "JsonString")];
      IFrom ["jsoned"; "types"] [("JsonBoolean", "JsonBoolean"); ("JsonNull", "JsonNull")];
      IFrom ["jsoned"; "types"; "json_type"] [("JsonType", "JsonType")];
      IBind ["__all__"];
      IBind ["JsonObject"];
      IBind ["JsonArray"];
      IBind ["_class_map"];
      IBind ["_map_value"] ].

(* jsoned/types/json_null.py, top-level statements at lines 1, 3, 6. *)
Definition m_types_json_null : pymod :=
  PyMod ["jsoned"; "types"; "json_null"] false
    [ IFrom ["jsoned"; "types"; "json_type"] [("JsonType", "JsonType")];
      IBind ["__all__"];
      IBind ["JsonNull"] ].

(* jsoned/types/json_number.py, top-level statements at lines 1, 2, 3, 5, 7, 10. *)
Definition m_types_json_number : pymod :=
  PyMod ["jsoned"; "types"; "json_number"] false
    [ IFrom ["__future__"] [("annotations", "annotations")];
      IFrom ["decimal"] [("Decimal", "Decimal")];
      IFrom ["typing"] [("Union", "Union"); ("overload", "overload")];
      IFrom ["jsoned"; "types"; "json_type"] [("JsonType", "JsonType")];
      IBind ["__all__"];
      IBind ["JsonNumber"] ].

(* jsoned/types/json_string.py, top-level statements at lines 1, 3, 5, 8. *)
Definition m_types_json_string : pymod :=
  PyMod ["jsoned"; "types"; "json_string"] false
    [ IFrom ["collections"] [("UserString", "UserString")];
      IFrom ["jsoned"; "types"; "json_type"] [("JsonType", "JsonType")];
      IBind ["__all__"];
      IBind ["JsonString"] ].

(* jsoned/types/json_type.py, top-level statements at lines 1, 3, 4, 5, 7, 8, 10, 13, 22. *)
Definition m_types_json_type : pymod :=
  PyMod ["jsoned"; "types"; "json_type"] false
    [ IFrom ["__future__"] [("annotations", "annotations")];
      IFrom ["abc"] [("ABC", "ABC")];
      IFrom ["functools"] [("cached_property", "cached_property")];
      IFrom ["typing"] [("Optional", "Optional")];
      IFrom ["jsoned"; "json_pointer"] [("JsonPointer", "JsonPointer")];
      IFrom ["jsoned"; "utils"] [("AnyJsonType", "AnyJsonType")];
      IBind ["__all__"];
      IBind ["JsonTypes"];
      IBind ["JsonType"] ].

(* jsoned/uri.py, top-level statements at lines 1, 3, 5, 6, 13, 16, 78. *)
Definition m_uri : pymod :=
  PyMod ["jsoned"; "uri"] false
    [ IFrom ["__future__"] [("annotations", "annotations")];
      IFrom ["typing"] [("overload", "overload")];
      IFrom ["rfc3986"] [("misc", "misc")];
      IFrom ["rfc3986"; "normalizers"] [("normalize_scheme", "normalize_scheme"); ("normalize_path", "normalize_path"); ("normalize_fragment", "normalize_fragment"); ("normalize_query", "normalize_query")];
      IBind ["__all__"];
      IBind ["Authority"];
      IBind ["Uri"] ].

(* jsoned/uri_loader.py, top-level statements at lines 1, 3, 4, 5, 6, 7, 9, 11, 12, 13, 15, 16, 18, 25, 28, 38. *)
Definition m_uri_loader : pymod :=
  PyMod ["jsoned"; "uri_loader"] false
    [ IFrom ["__future__"] [("annotations", "annotations")];
      IFrom ["abc"] [("abstractmethod", "abstractmethod"); ("ABC", "ABC")];
      IFrom ["decimal"] [("Decimal", "Decimal")];
      IFrom ["functools"] [("lru_cache", "lru_cache"); ("partial", "partial")];
      IFrom ["json"] [("load", "_load_json")];
      IFrom ["os"] [("path", "path")];
      IFrom ["yaml"] [("FullLoader", "YamlFullLoader"); ("load", "_load_yaml")];
      IFrom ["jsoned"; "json_core"] [("JsonSchema", "JsonSchema"); ("Vocabulary", "Vocabulary")];
      IFrom ["jsoned"; "uri"] [("Uri", "Uri")];
      IFrom ["jsoned"; "uri_resolver"] [("UriResolver", "UriResolver")];
      IBind ["load_yaml"];
      IBind ["load_json"];
      IBind ["_SUPPORTED_FORMATS"];
      IBind ["__all__"];
      IBind ["UriLoader"];
      IBind ["DefaultLoader"] ].

(* jsoned/uri_resolver.py, top-level statements at lines 1, 3, 4, 5, 7, 9, 13, 19. *)
Definition m_uri_resolver : pymod :=
  PyMod ["jsoned"; "uri_resolver"] false
    [ IFrom ["__future__"] [("annotations", "annotations")];
      IFrom ["abc"] [("abstractmethod", "abstractmethod")];
      IFrom ["os"] [("path", "path")];
      IFrom ["typing"] [("Protocol", "Protocol"); ("runtime_checkable", "runtime_checkable")];
      IFrom ["jsoned"; "uri"] [("Uri", "Uri")];
      IBind ["__all__"];
      IBind ["UriResolver"];
      IBind ["MappableUriResolver"] ].

(* jsoned/utils.py, top-level statements at lines 1, 2, 4, 6, 7. *)
Definition m_utils : pymod :=
  PyMod ["jsoned"; "utils"] false
    [ IFrom ["decimal"] [("Decimal", "Decimal")];
      IFrom ["typing"] [("TypeVar", "TypeVar"); ("List", "List"); ("Dict", "Dict")];
      IBind ["__all__"];
      IBind ["NoneType"];
      IBind ["AnyJsonType"] ].

(* jsoned/validators/__init__.py, top-level statements at lines 1, 2, 3, 4, 5, 7. *)
Definition m_validators : pymod :=
  PyMod ["jsoned"; "validators"] true
    [ IFrom ["jsoned"; "validators"; "array_validators"] [("ArrayContainsValidator", "ArrayContainsValidator"); ("ArrayValidator", "ArrayValidator"); ("ArrayUniqueValidators", "ArrayUniqueValidators")];
      IFrom ["jsoned"; "validators"; "composition_validators"] [("ConditionalValidator", "ConditionalValidator"); ("AllOfValidator", "AllOfValidator"); ("AnyOfValidator", "AnyOfValidator"); ("OneOfValidator", "OneOfValidator"); ("NotValidator", "NotValidator")];
      IFrom ["jsoned"; "validators"; "core_validators"] [("Validator", "Validator"); ("CompoundValidator", "CompoundValidator"); ("TypeValidator", "TypeValidator"); ("EnumValidator", "EnumValidator"); ("ConstValidator", "ConstValidator")];
      IFrom ["jsoned"; "validators"; "number_validators"] [("NumberMaximumValidator", "NumberMaximumValidator"); ("NumberMinimumValidator", "NumberMinimumValidator"); ("NumberMultipleOfValidator", "NumberMultipleOfValidator")];
      IFrom ["jsoned"; "validators"; "object_validators"] [("MaximumPropertiesValidator", "MaximumPropertiesValidator"); ("MinimumPropertiesValidator", "MinimumPropertiesValidator"); ("RequiredPropertiesValidator", "RequiredPropertiesValidator"); ("ObjectValidator", "ObjectValidator"); ("DependentSchemasValidator", "DependentSchemasValidator"); ("DependentRequiredValidator", "DependentRequiredValidator")];
      IFrom ["jsoned"; "validators"; "string_validators"] [("StringMinimumLengthValidator", "StringMinimumLengthValidator"); ("StringMaximumLengthValidator", "StringMaximumLengthValidator"); ("StringFormatValidator", "StringFormatValidator"); ("StringPatternValidator", "StringPatternValidator")] ].

(* jsoned/validators/array_validators.py, top-level statements at lines 1, 3, 4, 6, 7, 8, 11, 37, 60, 74, 88. *)
Definition m_validators_array_validators : pymod :=
  PyMod ["jsoned"; "validators"; "array_validators"] false
    [ IFrom ["typing"] [("List", "List")];
      IFrom ["jsoned"; "errors"] [("ValidationError", "ValidationError"); ("MinimumContainsValidationError", "MinimumContainsValidationError"); ("MaximumContainsValidationError", "MaximumContainsValidationError")];
      IFrom ["jsoned"; "errors"; "array_validation_errors"] [("MinimumItemsValidationError", "MinimumItemsValidationError"); ("MaximumItemsValidationError", "MaximumItemsValidationError"); ("UniqueItemsValidationError", "UniqueItemsValidationError")];
      IFrom ["jsoned"; "errors"; "core_validation_errors"] [("TypeValidationError", "TypeValidationError")];
      IFrom ["jsoned"; "types"] [("JsonType", "JsonType")];
      IFrom ["jsoned"; "validators"; "core_validators"] [("CompoundValidator", "CompoundValidator"); ("Context", "Context"); ("Validator", "Validator")];
      IBind ["ArrayValidator"];
      IBind ["ArrayContainsValidator"];
      IBind ["ArrayMinimumLengthValidator"];
      IBind ["ArrayMaximumLengthValidator"];
      IBind ["ArrayUniqueValidators"] ].

(* jsoned/validators/composition_validators.py, top-level statements at lines 1, 2, 3, 6, 15, 31, 55, 67. *)
Definition m_validators_composition_validators : pymod :=
  PyMod ["jsoned"; "validators"; "composition_validators"] false
    [ IFrom ["jsoned"; "errors"] [("ValidationError", "ValidationError")];
      IFrom ["jsoned"; "validators"] [("Validator", "Validator")];
      IFrom ["jsoned"; "validators"; "core_validators"] [("Context", "Context"); ("CompoundValidator", "CompoundValidator")];
      IBind ["AllOfValidator"];
      IBind ["AnyOfValidator"];
      IBind ["OneOfValidator"];
      IBind ["NotValidator"];
      IBind ["ConditionalValidator"] ].

(* jsoned/validators/core_validators.py, top-level statements at lines 1, 3, 4, 5, 7, 8, 9, 10, 13, 47, 59, 97, 128, 133, 138, 178. *)
Definition m_validators_core_validators : pymod :=
  PyMod ["jsoned"; "validators"; "core_validators"] false
    [ IFrom ["__future__"] [("annotations", "annotations")];
      IFrom ["abc"] [("abstractmethod", "abstractmethod"); ("ABC", "ABC")];
      IFrom ["decimal"] [("Decimal", "Decimal")];
      IFrom ["typing"] [("Any", "Any"); ("List", "List"); ("overload", "overload"); ("Dict", "Dict"); ("Tuple", "Tuple")];
      IFrom ["jsoned"; "errors"] [("ValidationError", "ValidationError")];
      IFrom ["jsoned"; "errors"; "core_validation_errors"] [("TypeValidationError", "TypeValidationError"); ("EnumValidationError", "EnumValidationError"); ("ConstValidationError", "ConstValidationError")];
      IFrom ["jsoned"; "types"] [("JsonType", "JsonType")];
      IFrom ["jsoned"; "utils"] [("AnyJsonType", "AnyJsonType")];
      IBind ["Context"];
      IBind ["Validator"];
      IBind ["CompoundValidator"];
      IBind ["TypeValidator"];
      IBind ["PassValidator"];
      IBind ["FailValidator"];
      IBind ["EnumValidator"];
      IBind ["ConstValidator"] ].

(* jsoned/validators/format_validators.py, top-level statements at lines 1, 2, 3, 4, 5, 6, 7, 9, 16, 37, 45, 53, 54, 57, 67, 79, 91, 102, 115, 122, 135, 141, 148, 163, 171, 179, 191, 197, 205, 208, 216, 222, 230. *)
Definition m_validators_format_validators : pymod :=
  PyMod ["jsoned"; "validators"; "format_validators"] false
    [ IImport ["base64"] "base64";
      IImport ["re"] "re";
      IFrom ["datetime"] [("date", "date"); ("datetime", "datetime"); ("time", "time"); ("timedelta", "timedelta")];
      IFrom ["decimal"] [("Decimal", "Decimal")];
      IFrom ["ipaddress"] [("AddressValueError", "AddressValueError"); ("IPv4Address", "IPv4Address"); ("IPv6Address", "IPv6Address")];
      IFrom ["typing"] [("Any", "Any")];
      IFrom ["uuid"] [("UUID", "UUID")];
      IFrom ["jsoned"; "iso_datetime"] [("parse_iso_date", "parse_iso_date"); ("parse_iso_datetime", "parse_iso_datetime"); ("parse_iso_duration", "parse_iso_duration"); ("parse_iso_time", "parse_iso_time")];
      IBind ["__all__"];
      IBind ["validate_format_pattern"];
      IBind ["validate_format_bytes"];
      IBind ["FALSY_EXPRESSION"];
      IBind ["TRUTHY_EXPRESSION"];
      IBind ["validate_format_boolean"];
      IBind ["validate_format_datetime"];
      IBind ["validate_format_date"];
      IBind ["validate_format_time"];
      IBind ["validate_format_time_duration"];
      IBind ["EMAIL_REGEX"];
      IBind ["validate_format_email"];
      IBind ["HOSTNAME_REGEX"];
      IBind ["validate_format_hostname"];
      IBind ["validate_format_decimal"];
      IBind ["validate_format_ip_address_v4"];
      IBind ["validate_format_ip_address_v6"];
      IBind ["validate_format_ip_address"];
      IBind ["SEMVER_REGEX"];
      IBind ["validate_format_semver"];
      IBind ["URI_REGEX"];
      IBind ["validate_format_uri"];
      IBind ["URL_REGEX"];
      IBind ["validate_format_url"];
      IBind ["validate_format_uuid"] ].

(* jsoned/validators/number_validators.py, top-level statements at lines 1, 2, 4, 6, 8, 10, 13, 28, 44. *)
Definition m_validators_number_validators : pymod :=
  PyMod ["jsoned"; "validators"; "number_validators"] false
    [ IFrom ["decimal"] [("Decimal", "Decimal")];
      IFrom ["typing"] [("Union", "Union")];
      IFrom ["jsoned"; "errors"; "number_validation_error"] [("MultipleOfValidationError", "MultipleOfValidationError"); ("MinimumValidationError", "MinimumValidationError"); ("MaximumValidationError", "MaximumValidationError")];
      IFrom ["jsoned"; "validators"; "core_validators"] [("Validator", "Validator"); ("Context", "Context")];
      IBind ["__all__"];
      IBind ["NumberUnion"];
      IBind ["NumberMultipleOfValidator"];
      IBind ["NumberMinimumValidator"];
      IBind ["NumberMaximumValidator"] ].

(* jsoned/validators/object_validators.py, top-level statements at lines 1, 2, 3, 4, 6, 8, 11, 24, 33, 42, 82, 102. *)
Definition m_validators_object_validators : pymod :=
  PyMod ["jsoned"; "validators"; "object_validators"] false
    [ IImport ["dataclasses"] "dataclasses";
      IImport ["re"] "re";
      IFrom ["functools"] [("partial", "partial")];
      IFrom ["typing"] [("List", "List"); ("Pattern", "Pattern"); ("Dict", "Dict"); ("Callable", "Callable")];
      IFrom ["jsoned"; "errors"; "object_validation_errors"] [("RequiredPropertyValidationError", "RequiredPropertyValidationError"); ("MinimumPropertiesValidationError", "MinimumPropertiesValidationError"); ("MaximumPropertiesValidationError", "MaximumPropertiesValidationError"); ("DependentValidationError", "DependentValidationError")];
      IFrom ["jsoned"; "validators"; "core_validators"] [("Validator", "Validator"); ("Context", "Context"); ("CompoundValidator", "CompoundValidator")];
      IBind ["RequiredPropertiesValidator"];
      IBind ["MinimumPropertiesValidator"];
      IBind ["MaximumPropertiesValidator"];
      IBind ["ObjectValidator"];
      IBind ["DependentRequiredValidator"];
      IBind ["DependentSchemasValidator"] ].

(* jsoned/validators/string_validators.py, top-level statements at lines 1, 3, 5, 6, 8, 10, 13, 27, 41, 55. *)
Definition m_validators_string_validators : pymod :=
  PyMod ["jsoned"; "validators"; "string_validators"] false
    [ IImport ["re"] "re";
      IFrom ["jsoned"; "errors"; "string_validation_errors"] [("MinimumLengthValidationError", "MinimumLengthValidationError"); ("MaximumLengthValidationError", "MaximumLengthValidationError"); ("FormatValidationError", "FormatValidationError")];
      IFrom ["jsoned"; "string_format"] [("StringFormat", "StringFormat")];
      IFrom ["jsoned"; "validators"] [("Validator", "Validator")];
      IBind ["__all__"];
      IFrom ["jsoned"; "validators"; "core_validators"] [("Context", "Context")];
      IBind ["StringMinimumLengthValidator"];
      IBind ["StringMaximumLengthValidator"];
      IBind ["StringFormatValidator"];
      IBind ["StringPatternValidator"] ].

(* jsoned/vocabulary.py, top-level statements at lines 1, 2, 3, 4, 5, 6, 7, 8, 9, 10, 11, 12, 13, 14, 15, 16, 17, 20, 26, 42. *)
Definition m_vocabulary : pymod :=
  PyMod ["jsoned"; "vocabulary"] false
    [ IFrom ["jsoned"; "json_store"] [("JsonStore", "JsonStore")];
      IFrom ["jsoned"; "keywords"; "ref_keyword"] [("RefKeyword", "RefKeyword")];
      IFrom ["jsoned"; "keywords"; "anchor_keyword"] [("AnchorKeyword", "AnchorKeyword")];
      IFrom ["jsoned"; "keywords"; "id_keyword"] [("IdKeyword", "IdKeyword")];
      IFrom ["jsoned"; "keywords"; "type_keyword"] [("TypeKeyword", "TypeKeyword")];
      IFrom ["jsoned"; "keywords"; "enum_keyword"] [("EnumKeyword", "EnumKeyword")];
      IFrom ["jsoned"; "keywords"; "exclusive_maximum_keyword"] [("ExclusiveMaximumKeyword", "ExclusiveMaximumKeyword")];
      IFrom ["jsoned"; "keywords"; "exclusive_minimum_keyword"] [("ExclusiveMinimumKeyword", "ExclusiveMinimumKeyword")];
      IFrom ["jsoned"; "keywords"; "format_keyword"] [("FormatKeyword", "FormatKeyword")];
      IFrom ["jsoned"; "keywords"; "max_length_keyword"] [("MaximumLengthKeyword", "MaximumLengthKeyword")];
      IFrom ["jsoned"; "keywords"; "maximum_keyword"] [("MaximumKeyword", "MaximumKeyword")];
      IFrom ["jsoned"; "keywords"; "min_length_keyword"] [("MinimumLengthKeyword", "MinimumLengthKeyword")];
      IFrom ["jsoned"; "keywords"; "minimum_keyword"] [("MinimumKeyword", "MinimumKeyword")];
      IFrom ["jsoned"; "keywords"; "multiple_of_keyword"] [("MultipleOfKeyword", "MultipleOfKeyword")];
      IFrom ["jsoned"; "keywords"; "pattern_keyword"] [("PatternKeyword", "PatternKeyword")];
      IFrom ["jsoned"; "keywords"; "properties_keyword"] [("PropertiesKeyword", "PropertiesKeyword")];
      IFrom ["jsoned"; "keywords"; "pattern_properties_keyword"] [("PatternPropertiesKeyword", "PatternPropertiesKeyword")];
      IBind ["CORE_VOCABULARY"];
      IBind ["VALIDATOR_VOCABULARY"];
      IBind ["DRAFT_2020_12_VOCABULARY"] ].

(* jsoned/**/*.py: every module of the package. *)
Definition package : list pymod :=
  [ m_jsoned;
    m_errors;
    m_errors_array_validation_errors;
    m_errors_core_validation_errors;
    m_errors_json_load_error;
    m_errors_number_validation_error;
    m_errors_object_validation_errors;
    m_errors_schema_parse_error;
    m_errors_string_validation_errors;
    m_errors_validation_error;
    m_iso_datetime;
    m_json_core;
    m_json_pointer;
    m_json_store;
    m_keywords;
    m_keywords_additional_properties_keyword;
    m_keywords_all_of_keyword;
    m_keywords_anchor_keyword;
    m_keywords_any_of_keyword;
    m_keywords_const_keyword;
    m_keywords_contains_keyword;
    m_keywords_dependent_required_keyword;
    m_keywords_dependent_schemas_keyword;
    m_keywords_else_keyword;
    m_keywords_enum_keyword;
    m_keywords_exclusive_maximum_keyword;
    m_keywords_exclusive_minimum_keyword;
    m_keywords_format_keyword;
    m_keywords_id_keyword;
    m_keywords_if_keyword;
    m_keywords_items_keyword;
    m_keywords_max_items_keyword;
    m_keywords_max_length_keyword;
    m_keywords_max_properties_keyword;
    m_keywords_maximum_keyword;
    m_keywords_min_items_keyword;
    m_keywords_min_length_keyword;
    m_keywords_min_properties_keyword;
    m_keywords_minimum_keyword;
    m_keywords_multiple_of_keyword;
    m_keywords_not_keyword;
    m_keywords_one_of_keyword;
    m_keywords_pattern_keyword;
    m_keywords_pattern_properties_keyword;
    m_keywords_prefix_items_keyword;
    m_keywords_properties_keyword;
    m_keywords_property_names_keyword;
    m_keywords_ref_keyword;
    m_keywords_required_properties_keyword;
    m_keywords_then_keyword;
    m_keywords_type_keyword;
    m_keywords_unevaluated_properties_keyword;
    m_keywords_unique_items_keyword;
    m_string_format;
    m_types;
    m_types_json_boolean;
    m_types_json_complex;
    m_types_json_null;
    m_types_json_number;
    m_types_json_string;
    m_types_json_type;
    m_uri;
    m_uri_loader;
    m_uri_resolver;
    m_utils;
    m_validators;
    m_validators_array_validators;
    m_validators_composition_validators;
    m_validators_core_validators;
    m_validators_format_validators;
    m_validators_number_validators;
    m_validators_object_validators;
    m_validators_string_validators;
    m_vocabulary ].
