(** The text and the code of a [ValidationError], [jsoned/errors]. *)
From Verif Require Import PyBase Errors Ident.
Local Open Scope N_scope.

(** ** [template.format(name=value, ...)] with its result; the scan is that of
    [Errors.format_scan].  [args] gives [str(value)] for each keyword argument
    ([format(value, "")], which is [str(value)] for the classes that occur: str,
    int, Decimal and list). *)
Definition field_text (args : list (pystr * pystr)) (name : pystr) : res pystr :=
  i <- positional (first_part name) ;;
  if (i : bool) then Raise EIndex
  else match dget (first_part name) args with
       | Some x => if existsb (N.eqb c_dot) name then Raise EUnmodelled else Ok x
       | None => Raise (EKey (first_part name))
       end.
Fixpoint format_text (args : list (pystr * pystr)) (inside : option pystr) (t : pystr) : res pystr :=
  match inside with
  | None =>
      match t with
      | [] => Ok []
      | c :: t' =>
          if c =? c_rb then
            match t' with
            | c' :: t'' => if c' =? c_rb then s <- format_text args None t'' ;; Ok (c_rb :: s) else Raise EValue
            | [] => Raise EValue
            end
          else if c =? c_lb then
            match t' with
            | c' :: t'' =>
                if c' =? c_lb then s <- format_text args None t'' ;; Ok (c_lb :: s)
                else format_text args (Some []) t'
            | [] => Raise EValue
            end
          else s <- format_text args None t' ;; Ok (c :: s)
      end
  | Some acc =>
      match t with
      | [] => Raise EValue
      | c :: t' =>
          if c =? c_lb then Raise EValue
          else if c =? c_rb then x <- field_text args (rev acc) ;; s <- format_text args None t' ;; Ok (x ++ s)
          else if goes_on c then
            if name_ends false t then field_text args (rev acc) ;;; Raise EUnmodelled else Raise EValue
          else format_text args (Some (c :: acc)) t'
      end
  end.

Section Text.
  (** [str.isprintable] of one character beyond ASCII *)
  Variable printable : N -> bool.
  (** [str] of a list of strings *)
  Definition strs_text (l : list pystr) : pystr := u "[" ++ join (u ", ") (map (repr_str printable) l) ++ u "]".
  (** [self.__dict__] of an error, as texts: the attributes the validators pass
      ([validators/*.py], the arguments of the raise statements).  [shown] is the
      text of what the kind does not record: for [enum] and [const]
      [str] of the operand, for [FailValidator] [str] of the rejected value. *)
  Definition error_args (e : verr) (shown : pystr) : list (pystr * pystr) :=
    (u "path", ve_path e) ::
    match ve_kind e with
    | KFail | KNot | KOneOf => [(u "message", message (ve_kind e) shown)]
    | KType ts => [(u "expected_types", strs_text ts)]                     (* core_validators.py:115,122; array_validators.py:17 *)
    | KEnum => [(u "expected_values", shown)]                              (* core_validators.py:153,166,172 *)
    | KConst => [(u "expected_value", shown)]                              (* core_validators.py:184,187 *)
    | KMinimum d => [(u "expected_minimum", dec_text d)]                   (* number_validators.py:35,38 *)
    | KMaximum d => [(u "expected_maximum", dec_text d)]                   (* number_validators.py:51,54 *)
    | KMultipleOf d => [(u "multiple_of", dec_text d)]                     (* number_validators.py:22 *)
    | KMinLength n | KMinItems n | KMinContains n | KMinProps n => [(u "expected_minimum", int_text n)]
    | KMaxLength n | KMaxItems n | KMaxContains n | KMaxProps n => [(u "expected_maximum", int_text n)]
    | KFormat f => [(u "expected_format", f)]                              (* string_validators.py:49,61 *)
    | KUnique => []
    | KRequired p => [(u "expected_property", p)]                          (* object_validators.py:18 *)
    | KDependent p q => [(u "property", p); (u "expected_property", q)]    (* object_validators.py:99 *)
    end.
  (** [str(error)], errors/validation_error.py:25-27 *)
  Definition error_text (e : verr) (shown : pystr) : res pystr :=
    format_text (error_args e shown) None
      (u "Failed validation at `" ++ ve_path e ++ u "`. " ++ message (ve_kind e) shown).
End Text.

(** [error.code], errors/*.py: the attribute [code] of the classes *)
Definition error_code (k : vkind) : pystr :=
  match k with
  | KFail | KNot | KOneOf => u "error"
  | KType _ => u "type_error"
  | KEnum => u "enum_error"
  | KConst => u "const_error"
  | KMinimum _ => u "minimum_error"
  | KMaximum _ => u "maximum_error"
  | KMultipleOf _ => u "multiple_of_error"
  | KMinLength _ => u "min_length_error"
  | KMaxLength _ => u "max_length_error"
  | KFormat _ => u "format_error"
  | KMinItems _ => u "minimum_items_error"
  | KMaxItems _ => u "maximum_items_error"
  | KMinContains _ | KMaxContains _ => u "contains_error"
  | KUnique => u "unique_items_error"
  | KRequired _ => u "required_property_error"
  | KMinProps _ => u "minimum_properties_error"
  | KMaxProps _ => u "maximum_properties_error"
  | KDependent _ _ => u "dependent_error"
  end.
