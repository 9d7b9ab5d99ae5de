(** [jsoned/errors]: constructing and rendering a [ValidationError]. *)
From Verif Require Import PyBase.
Local Open Scope N_scope.

(** ** [str.format] with keyword arguments only; outcome only.
    Models CPython's [MarkupIterator_next], [parse_field], [get_integer] and
    [get_field_object] (Objects/stringlib/unicode_format.h): ["{{"] and ["}}"] are
    literal braces, a lone brace is a [ValueError], ["{name}"] is looked up
    among the keyword arguments, an empty or numeric name asks for a
    positional argument (there are none: [IndexError]; a number above
    [sys.maxsize] of 64 bits is a [ValueError]).  A name ends at [.] or [[]; after
    the field a conversion ([!]) and a format specification ([:]) may follow.
    Simplifications: the produced text is not computed; a field that does more
    with an argument than name it ([.] [[] [!] [:]) is [EUnmodelled], and so is a
    name with a character beyond ASCII after nothing but ASCII digits. *)
Definition c_lb : N := 123.  (* { *)
Definition c_rb : N := 125.  (* } *)
Definition c_sub : N := 91.   (* [ *)
Definition c_end : N := 93.   (* ] *)
Definition c_conv : N := 33.  (* ! *)
Definition c_spec : N := 58.  (* : *)
Definition c_dot : N := 46.   (* . *)

Definition is_digit (c : N) : bool := (48 <=? c) && (c <=? 57).
Definition max_size : N := 9223372036854775807.
(** [get_integer]: [None] if the text is not a number *)
Fixpoint get_integer (acc : N) (s : pystr) : res (option N) :=
  match s with
  | [] => Ok (Some acc)
  | c :: s' =>
      if is_digit c then
        let n := 10 * acc + (c - 48) in
        if max_size <? n then Raise EValue else get_integer n s'
      else if 128 <=? c then Raise EUnmodelled else Ok None
  end.
(** [field_name_split]: the part of a field name before [.] *)
Fixpoint first_part (name : pystr) : pystr :=
  match name with
  | [] => []
  | c :: name' => if c =? c_dot then [] else c :: first_part name'
  end.
Definition positional (first : pystr) : res bool :=
  match first with
  | [] => Ok true
  | _ => i <- get_integer 0 first ;; Ok (match i with Some _ => true | None => false end)
  end.
Definition field_outcome (fields : list pystr) (name : pystr) : res unit :=
  i <- positional (first_part name) ;;
  if (i : bool) then Raise EIndex
  else if str_mem (first_part name) fields then
    if existsb (N.eqb c_dot) name then Raise EUnmodelled else Ok tt
  else Raise (EKey (first_part name)).

(** Does the field end, [parse_field]: in a format specification, after [!], and
    in the name ([sub]: between [[] and []]) *)
Fixpoint spec_ends (depth : nat) (t : pystr) : bool :=
  match t with
  | [] => false
  | c :: t' =>
      if c =? c_lb then spec_ends (S depth) t'
      else if c =? c_rb then match depth with O => true | S d => spec_ends d t' end
      else spec_ends depth t'
  end.
Definition conv_ends (t : pystr) : bool :=
  match t with
  | _ :: c :: t' => if c =? c_rb then true else if c =? c_spec then spec_ends 0 t' else false
  | _ => false
  end.
Fixpoint name_ends (sub : bool) (t : pystr) : bool :=
  match t with
  | [] => false
  | c :: t' =>
      if sub then name_ends (negb (c =? c_end)) t'
      else if c =? c_lb then false
      else if c =? c_rb then true
      else if c =? c_sub then name_ends true t'
      else if c =? c_spec then spec_ends 0 t'
      else if c =? c_conv then conv_ends t'
      else name_ends false t'
  end.
(** what follows [[], [!] or [:] in a field *)
Definition goes_on (c : N) : bool := (c =? c_sub) || (c =? c_spec) || (c =? c_conv).

(** [inside]: [Some acc] while scanning the name of a replacement field (reversed),
    [None] in literal text. *)
Fixpoint format_scan (fields : list pystr) (inside : option pystr) (t : pystr)
  : res unit :=
  match inside with
  | None =>
      match t with
      | [] => Ok tt
      | c :: t' =>
          if c =? c_rb then
            match t' with
            | c' :: t'' =>
                if c' =? c_rb then format_scan fields None t'' else Raise EValue
            | [] => Raise EValue
            end
          else if c =? c_lb then
            match t' with
            | c' :: t'' =>
                if c' =? c_lb then format_scan fields None t''
                else format_scan fields (Some []) t'
            | [] => Raise EValue
            end
          else format_scan fields None t'
      end
  | Some acc =>
      match t with
      | [] => Raise EValue
      | c :: t' =>
          if c =? c_lb then Raise EValue
          else if c =? c_rb then
            field_outcome fields (rev acc) ;;; format_scan fields None t'
          else if goes_on c then
            if name_ends false t then field_outcome fields (rev acc) ;;; Raise EUnmodelled
            else Raise EValue
          else format_scan fields (Some (c :: acc)) t'
      end
  end.
Definition py_format (fields : list pystr) (t : pystr) : res unit :=
  format_scan fields None t.

(** ** Message templates, [jsoned/errors/*.py].
    The text after the "Failed validation at ..." prefix, per error class. *)
Definition template (k : vkind) : pystr :=
  match k with
  | KFail => u "Unexpected value passed."  (* args-based; see [err_str] *)
  | KNot => u "Failed to validate the value."
  | KOneOf => u "Passed value matches more than one expression, exactly one expected."
  | KType _ => u "Passed value must be one of the following type(s) `{expected_types}`."
  | KEnum => u "Passed value must be one of: `{expected_values}`."
  | KConst => u "Passed value must be equal to: `{expected_value}`"
  | KMinimum _ => u "Passed value must be greater or equal to set minimum `{expected_minimum}`."
  | KMaximum _ => u "Passed value must be lower or equal to set maximum `{expected_maximum}`."
  | KMultipleOf _ => u "Passed value must be multiple of `{multiple_of}`."
  | KMinLength _ => u "Passed value must be at least `{expected_minimum}` characters long."
  | KMaxLength _ => u "Passed value cannot exceed `{expected_maximum}` characters."
  | KFormat _ => u "Passed value must conform `{expected_format}` format."
  | KMinItems _ => u "Passed value's length must be greater or equal to set minimum `{expected_minimum}`."
  | KMaxItems _ => u "Passed value's length must be lower or equal to set maximum `{expected_maximum}`."
  | KMinContains _ => u "Array should contain specified value at least `{expected_minimum}` times."
  | KMaxContains _ => u "Array should contain specified value at most `{expected_maximum}` times."
  | KUnique => u "Passed value must contain only unique items."
  | KRequired _ => u "Passed value is missing property `{expected_property}`."
  | KMinProps _ => u "The number of properties is lower than expected minimum: {expected_minimum}."
  | KMaxProps _ => u "The number of properties is greater than expected maximum: {expected_maximum}."
  | KDependent _ _ => u "Property `{property}` requires `{expected_property}` to be provided."
  end.

(** Attributes found in [self.__dict__] when the error is constructed
    ([errors/validation_error.py:11-14]; every keyword argument the validators
    pass is annotated on the respective class). *)
Definition fields (k : vkind) : list pystr :=
  u "path" ::
  match k with
  | KFail | KNot | KOneOf => [u "message"]
  | KType _ => [u "expected_types"]
  | KEnum => [u "expected_values"]
  | KConst => [u "expected_value"]
  | KMinimum _ | KMinLength _ | KMinItems _ | KMinContains _ | KMinProps _ => [u "expected_minimum"]
  | KMaximum _ | KMaxLength _ | KMaxItems _ | KMaxContains _ | KMaxProps _ => [u "expected_maximum"]
  | KMultipleOf _ => [u "multiple_of"]
  | KFormat _ => [u "expected_format"]
  | KUnique => []
  | KRequired _ => [u "expected_property"]
  | KDependent _ _ => [u "property"; u "expected_property"]
  end.

(** [ValidationError.__str__], [errors/validation_error.py:25-27]. [message] is
    the class template, or for the two errors built from a positional argument
    the given text. *)
Definition err_str (k : vkind) (path message : pystr) : res unit :=
  py_format (fields k) (u "Failed validation at `" ++ path ++ u "`. " ++ message).

(** Is the error constructed with a positional argument?  ([FailValidator],
    [NotValidator]: [core_validators.py:135], [composition_validators.py:64]) *)
Definition by_args (k : vkind) : bool :=
  match k with KFail | KNot => true | _ => false end.

(** [raise XValidationError(path=..., ...)], [errors/validation_error.py:11-20]:
    without positional arguments the constructor renders the message at once,
    and an exception of the rendering replaces the error. *)
Definition raise_verr {A} (k : vkind) (path : pystr) : res A :=
  if by_args k then Raise (EValid (VErr k path))
  else err_str k path (template k) ;;; Raise (EValid (VErr k path)).

(** The message of an error: the class template, or the text given by
    [FailValidator] ([core_validators.py:135]), which contains [str(value)] of
    the rejected value ([shown]). *)
Definition message (k : vkind) (shown : pystr) : pystr :=
  match k with
  | KFail => u "Unexpected `" ++ shown ++ u "` value passed."
  | _ => template k
  end.
(** [str(error)], [errors/validation_error.py:25-27] *)
Definition str_error (e : verr) (shown : pystr) : res unit :=
  err_str (ve_kind e) (ve_path e) (message (ve_kind e) shown).
