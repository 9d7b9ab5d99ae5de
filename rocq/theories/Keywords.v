(** The assertion keywords of [jsoned/keywords/], [can_apply_keyword],
    [LazyValidator] and [JsonSchema.validate] ([jsoned/json_core.py]). *)
From Verif Require Import PyBase PyVal Errors Validators.
From Coq Require Import QArith.
Local Open Scope Z_scope.

(** Every assertion keyword class exported by [keywords/__init__.py]. *)
Inductive akw : Type :=
| KwAdditionalProperties | KwAllOf | KwAnyOf | KwConst | KwContains
| KwDependentRequired | KwDependentSchemas | KwElse | KwEnum
| KwExclusiveMaximum | KwExclusiveMinimum | KwFormat | KwIf | KwItems
| KwMaxItems | KwMaxLength | KwMaxProperties | KwMaximum | KwMinItems
| KwMinLength | KwMinProperties | KwMinimum | KwMultipleOf | KwNot | KwOneOf
| KwPattern | KwPatternProperties | KwPrefixItems | KwProperties
| KwPropertyNames | KwRequired | KwThen | KwType | KwUnevaluatedProperties
| KwUniqueItems.

(** The [key] class attribute of each keyword. *)
Definition kw_key (k : akw) : pystr :=
  match k with
  | KwAdditionalProperties => u "additionalProperties"
  | KwAllOf => u "allOf"
  | KwAnyOf => u "anyOf"
  | KwConst => u "const"
  | KwContains => u "contains"
  | KwDependentRequired => u "dependentRequired"
  | KwDependentSchemas => u "dependentSchemas"
  | KwElse => u "else"
  | KwEnum => u "enum"
  | KwExclusiveMaximum => u "exclusiveMaximum"
  | KwExclusiveMinimum => u "exclusiveMinimum"
  | KwFormat => u "format"
  | KwIf => u "if"
  | KwItems => u "items"
  | KwMaxItems => u "maxItems"
  | KwMaxLength => u "maxLength"
  | KwMaxProperties => u "maxProperties"
  | KwMaximum => u "maximum"
  | KwMinItems => u "minItems"
  | KwMinLength => u "minLength"
  | KwMinProperties => u "minProperties"
  | KwMinimum => u "minimum"
  | KwMultipleOf => u "multipleOf"
  | KwNot => u "not"
  | KwOneOf => u "oneOf"
  | KwPattern => u "pattern"
  | KwPatternProperties => u "patternProperties"
  | KwPrefixItems => u "prefixItems"
  | KwProperties => u "properties"
  | KwPropertyNames => u "propertyNames"
  | KwRequired => u "required"
  | KwThen => u "then"
  | KwType => u "type"
  | KwUnevaluatedProperties => u "unevaluatedProperties"
  | KwUniqueItems => u "uniqueItems"
  end.

(** [VALIDATOR_VOCABULARY], [vocabulary.py:26-40]; the applicator keywords of
    [CORE_VOCABULARY] are skipped by [json_core.py:80-81]. *)
Definition validator_vocabulary : list akw :=
  [KwType; KwEnum; KwExclusiveMaximum; KwExclusiveMinimum; KwFormat;
   KwMaxLength; KwMaximum; KwMinLength; KwMinimum; KwMultipleOf; KwPattern;
   KwProperties; KwPatternProperties].

(** [TypeKeyword.VALID_TYPES], [type_keyword.py:10] *)
Definition valid_types : list pystr :=
  [u "string"; u "integer"; u "number"; u "boolean"; u "array"; u "object"; u "null"].

Section Graph.
  Context {node : Type}.
  Variable view : node -> res (nview node).
  Variable strx : node -> pystr.      (* str() of a node that is not a plain string *)
  Variable E : env.
  Notation data := (list (pystr * vobj node node)).

  (** [node[key]] and its [.type] *)
  Definition opnd (items : list (pystr * node)) (k : pystr) : res (nview node) :=
    match dget k items with
    | None => Raise (EKey k)
    | Some n => view n
    end.
  Definition opnd_node (items : list (pystr * node)) (k : pystr) : res node :=
    match dget k items with
    | None => Raise (EKey k)
    | Some n => Ok n
    end.

  (** Operand used as a plain number / string / list. A scalar or array reached
      through a [JsonReference] is outside the model. *)
  Definition as_num (w : nview node) : res dec :=
    match nv_val w with
    | NNum d => if nv_ref w then Raise EUnmodelled else Ok d
    | _ => Raise ESchemaParse
    end.
  Definition as_str (w : nview node) : res pystr :=
    match nv_val w with
    | NStr s => if nv_ref w then Raise EUnmodelled else Ok s
    | _ => Raise ESchemaParse
    end.
  Definition as_arr (w : nview node) : res (list node) :=
    match nv_val w with
    | NArr l => if nv_ref w then Raise EUnmodelled else Ok l
    | _ => Raise ESchemaParse
    end.
  Definition as_obj (w : nview node) : res (list (pystr * node)) :=
    match nv_val w with
    | NObj items => Ok items
    | _ => Raise ESchemaParse
    end.

  (** [str(item)] *)
  Definition item_str (n : node) : pystr :=
    match view n with
    | Ok (NView (NStr s) false) => s
    | _ => strx n
    end.

  (** [[str(item) for item in items]] for an operand of [dependentRequired],
      [dependent_required_keyword.py:15] *)
  Definition iter_strs (n : node) : res (list pystr) :=
    w <- view n ;;
    if nv_ref w then Raise EUnmodelled
    else match nv_val w with
         | NArr l => Ok (map item_str l)
         | NStr s => Ok (map (fun c => [c]) s)
         | NObj it => Ok (dkeys it)
         | _ => Raise EType
         end.

  (** [validator["properties"]], created on demand *)
  Definition empty_objv : objv node := ObjV [] None None false None.
  Definition get_objv (d : data) : res (objv node) :=
    match dget (u "properties") d with
    | None => Ok empty_objv
    | Some (VObject o) => Ok o
    | Some _ => Raise EUnmodelled
    end.
  Definition put_objv (d : data) (o : objv node) : data := dset (u "properties") (VObject o) d.

  (** [validator["if"]], created on demand *)
  Definition get_condv (d : data) : res (condv node) :=
    match dget (u "if") d with
    | None => Ok (CondV None None None)
    | Some (VCond k) => Ok k
    | Some _ => Raise EUnmodelled
    end.
  Definition put_condv (d : data) (k : condv node) : data := dset (u "if") (VCond k) d.

  Definition put (k : akw) (o : vobj node node) (d : data) : data := dset (kw_key k) o d.

  (** [node["exclusiveMaximum"] == True], [maximum_keyword.py:17] *)
  Definition eq_true (w : nview node) : bool :=
    match nv_val w with
    | NBool b => b
    | NNum d => Qeq_bool (dec_q d) 1
    | _ => false
    end.
  (** ["exclusiveX" in node and node["exclusiveX"] == True] *)
  Definition exclusive_flag (items : list (pystr * node)) (k : pystr) : res bool :=
    if dmem k items then w <- opnd items k ;; Ok (eq_true w) else Ok false.

  (** a schema that is boolean [true] *)
  Definition is_true (w : nview node) : bool :=
    match nv_val w with NBool true => true | _ => false end.

  (** [int(node[key].value)] of an optional numeric bound, [contains_keyword.py:17-25] *)
  Definition opt_bound (items : list (pystr * node)) (k : pystr) : res (option Z) :=
    if dmem k items then w <- opnd items k ;; n <- as_num w ;; Ok (Some (dec_int n))
    else Ok None.

  (** [EnumKeyword]: unwrap one element, [core_validators.py:143-149] *)
  Definition enum_item (n : node) : res (nval node) :=
    w <- view n ;; if nv_ref w then Raise EUnmodelled else Ok (nv_val w).

  (** [keyword.apply(schema, node, validator)] on an object node with members
      [items]. On an exception the validator keeps the entries it had. *)
  Definition apply (k : akw) (items : list (pystr * node)) (d : data) : res data :=
    w <- opnd items (kw_key k) ;;
    n <- opnd_node items (kw_key k) ;;
    match k with
    | KwAdditionalProperties =>                 (* additional_properties_keyword.py:11-27 *)
        match nv_val w with
        | NBool true => o <- get_objv d ;; Ok (put_objv d o)
        | NBool false =>
            o <- get_objv d ;;
            Ok (put_objv d (ObjV (ov_data o) (Some SFail) (ov_pat o) (ov_uneval o) (ov_names o)))
        | NObj _ =>
            o <- get_objv d ;;
            Ok (put_objv d (ObjV (ov_data o) (Some (SLazy n)) (ov_pat o) (ov_uneval o) (ov_names o)))
        | _ => Raise ESchemaParse
        end
    | KwAllOf => l <- as_arr w ;; Ok (put k (VAllOf l) d)      (* all_of_keyword.py:11-18 *)
    | KwAnyOf => l <- as_arr w ;; Ok (put k (VAnyOf l) d)      (* any_of_keyword.py:11-18 *)
    | KwOneOf => l <- as_arr w ;; Ok (put k (VOneOf l) d)      (* one_of_keyword.py:11-19 *)
    | KwConst =>                                (* const_keyword.py:10-14 *)
        match nv_val w with
        | NArr _ | NObj _ => Raise ESchemaParse
        | x => if nv_ref w then Raise EUnmodelled else Ok (put k (VConst x) d)
        end
    | KwContains =>                             (* contains_keyword.py:11-27 *)
        _ <- as_obj w ;;
        mn <- opt_bound items (u "minContains") ;;
        mx <- opt_bound items (u "maxContains") ;;
        Ok (put k (VContains n (match mn with Some z => z | None => 1 end) mx) d)
    | KwDependentRequired =>                    (* dependent_required_keyword.py:11-16 *)
        m <- as_obj w ;;
        l <- map_res (fun '(key, x) => s <- iter_strs x ;; Ok (key, s)) m ;;
        Ok (put k (VDepRequired l) d)
    | KwDependentSchemas =>                     (* dependent_schemas_keyword.py:11-19 *)
        m <- as_obj w ;; Ok (put k (VDepSchemas m) d)
    | KwIf =>                                   (* if_keyword.py:11-21 *)
        _ <- as_obj w ;; c <- get_condv d ;;
        Ok (put_condv d (CondV (Some n) (cv_then c) (cv_else c)))
    | KwThen =>                                 (* then_keyword.py:11-21 *)
        _ <- as_obj w ;; c <- get_condv d ;;
        Ok (put_condv d (CondV (cv_if c) (Some n) (cv_else c)))
    | KwElse =>                                 (* else_keyword.py:11-21 *)
        _ <- as_obj w ;; c <- get_condv d ;;
        Ok (put_condv d (CondV (cv_if c) (cv_then c) (Some n)))
    | KwEnum =>                                 (* enum_keyword.py:10-14 *)
        match nv_val w with
        | NArr l => xs <- map_res enum_item l ;; Ok (put k (VEnum xs) d)
        | _ => Raise ESchemaParse
        end
    | KwExclusiveMaximum =>                     (* exclusive_maximum_keyword.py:11-21 *)
        match nv_val w with
        | NBool _ => if dmem (u "maximum") items then Ok d else Raise ESchemaParse
        | _ => m <- as_num w ;; Ok (put k (VMaximum m true) d)
        end
    | KwExclusiveMinimum =>                     (* exclusive_minimum_keyword.py:11-21 *)
        match nv_val w with
        | NBool _ => if dmem (u "minimum") items then Ok d else Raise ESchemaParse
        | _ => m <- as_num w ;; Ok (put k (VMinimum m true) d)
        end
    | KwMaximum =>                              (* maximum_keyword.py:11-20 *)
        m <- as_num w ;;
        ex <- exclusive_flag items (u "exclusiveMaximum") ;;
        Ok (put k (VMaximum m ex) d)
    | KwMinimum =>                              (* minimum_keyword.py:11-20 *)
        m <- as_num w ;;
        ex <- exclusive_flag items (u "exclusiveMinimum") ;;
        Ok (put k (VMinimum m ex) d)
    | KwFormat =>                               (* format_keyword.py:12-24 *)
        f <- as_str w ;;
        match fmt E f with
        | None => Raise ESchemaParse
        | Some _ => Ok (put k (VFormat f) d)
        end
    | KwItems =>                                (* items_keyword.py:11-29 *)
        match nv_val w with
        | NStr _ | NNull | NNum _ => Raise ESchemaParse
        | _ =>
            '(it, pre) <- (match dget (kw_key KwItems) d with
                           | None => Ok (None, None)
                           | Some (VArray it pre) => Ok (it, pre)
                           | Some _ => Raise EUnmodelled
                           end) ;;
            match nv_val w with
            | NArr l =>
                if nv_ref w then Raise EUnmodelled else
                if dmem (u "additionalItems") items then
                  wa <- opnd items (u "additionalItems") ;;
                  na <- opnd_node items (u "additionalItems") ;;
                  Ok (put k (VArray (if is_true wa then it else Some na) (Some l)) d)
                else Ok (put k (VArray it (Some l)) d)
            | _ => Ok (put k (VArray (if is_true w then it else Some n) pre) d)
            end
        end
    | KwPrefixItems =>                          (* prefix_items_keyword.py:11-21 *)
        l <- as_arr w ;;
        '(it, pre) <- (if dmem (u "items") d then
                         match dget (kw_key KwPrefixItems) d with
                         | None => Raise (EKey (kw_key KwPrefixItems))
                         | Some (VArray it pre) => Ok (it, pre)
                         | Some _ => Raise EUnmodelled
                         end
                       else Ok (None, None)) ;;
        Ok (put k (VArray it (Some l)) d)
    | KwMaxItems => m <- as_num w ;; Ok (put k (VMaxItems (dec_int m)) d)        (* max_items_keyword.py:11-15 *)
    | KwMinItems => m <- as_num w ;; Ok (put k (VMinItems (dec_int m)) d)        (* min_items_keyword.py:11-15 *)
    | KwMaxLength => m <- as_num w ;; Ok (put k (VMaxLength (dec_int m)) d)      (* max_length_keyword.py:11-15 *)
    | KwMinLength => m <- as_num w ;; Ok (put k (VMinLength (dec_int m)) d)      (* min_length_keyword.py:11-15 *)
    | KwMaxProperties => m <- as_num w ;; Ok (put k (VMaxProps (dec_int m)) d)   (* max_properties_keyword.py:11-15 *)
    | KwMinProperties => m <- as_num w ;; Ok (put k (VMinProps (dec_int m)) d)   (* min_properties_keyword.py:11-15 *)
    | KwMultipleOf => m <- as_num w ;; Ok (put k (VMultipleOf m) d)              (* multiple_of_keyword.py:11-15 *)
    | KwNot => _ <- as_obj w ;; Ok (put k (VNot n) d)                            (* not_keyword.py:11-16 *)
    | KwPattern =>                              (* pattern_keyword.py:11-17, string_validators.py:56-57 *)
        p <- as_str w ;;
        if re_ok E p then Ok (put k (VPattern p) d) else Raise ERe
    | KwPatternProperties =>                    (* pattern_properties_keyword.py:11-21 *)
        m <- as_obj w ;; o <- get_objv d ;;
        Ok (put_objv d (ObjV (ov_data o) (ov_addl o) (Some m) (ov_uneval o) (ov_names o)))
    | KwProperties =>                           (* properties_keyword.py:11-23 *)
        m <- as_obj w ;; o <- get_objv d ;;
        Ok (put_objv d (ObjV (fold_left (fun acc kn => dset (fst kn) (snd kn) acc) m (ov_data o))
                             (ov_addl o) (ov_pat o) (ov_uneval o) (ov_names o)))
    | KwPropertyNames =>                        (* property_names_keyword.py:11-18 *)
        _ <- as_obj w ;; o <- get_objv d ;;
        Ok (put_objv d (ObjV (ov_data o) (ov_addl o) (ov_pat o) (ov_uneval o) (Some n)))
    | KwRequired =>                             (* required_properties_keyword.py:11-15 *)
        l <- as_arr w ;; Ok (put k (VRequired (map item_str l)) d)
    | KwType =>                                 (* type_keyword.py:12-26 *)
        ts <- (match nv_val w with
               | NStr s => if nv_ref w then Raise EUnmodelled else Ok [s]
               | NArr l => if nv_ref w then Raise EUnmodelled else Ok (map item_str l)
               | _ => Raise ESchemaParse
               end) ;;
        if forallb (fun t => str_mem t valid_types) ts then Ok (put k (VType ts) d)
        else Raise ESchemaParse
    | KwUnevaluatedProperties =>                (* unevaluated_properties_keyword.py:11-21 *)
        match nv_val w with
        | NBool b =>
            o <- get_objv d ;;
            Ok (put_objv d (ObjV (ov_data o) (ov_addl o) (ov_pat o)
                                 (if b then ov_uneval o else true) (ov_names o)))
        | _ => Raise ESchemaParse
        end
    | KwUniqueItems =>                          (* unique_items_keyword.py:11-18 *)
        match nv_val w with
        | NBool b => if b then Ok (put k VUnique d) else Ok d
        | _ => Raise ESchemaParse
        end
    end.

  (** [key in node] for a non-object node: substring for strings
      ([UserString.__contains__]), element comparison for arrays (numbers and
      booleans refuse to be compared with a [str]), otherwise not iterable. *)
  Fixpoint arr_contains_str (key : pystr) (l : list node) : res bool :=
    match l with
    | [] => Ok false
    | m :: l' => b <- eq_node view (VStr key) m ;;
                 if b then Ok true else arr_contains_str key l'
    end.
  (** [can_apply_keyword], [json_core.py:46-61]. *)
  Definition can_apply (w : nview node) (key : pystr) : res bool :=
    match nv_val w with
    | NObj items => Ok (dmem key items)
    | NStr s => Ok (str_in key s)
    | NArr l => arr_contains_str key l
    | NNull | NBool _ | NNum _ => Raise EType
    end.

  (** One iteration of the keyword loop, [json_core.py:79-86]. Applying a
      keyword to a string or array indexes it with a [str]: [TypeError]. *)
  Definition step_kw (w : nview node) (k : akw) (d : data) : res data :=
    b <- can_apply w (kw_key k) ;;
    if b then
      match nv_val w with
      | NObj items => apply k items d
      | _ => Raise EType
      end
    else Ok d.
  Fixpoint run_kws (w : nview node) (voc : list akw) (d : data) : res data :=
    match voc with
    | [] => Ok d
    | k :: voc' => d' <- step_kw w k d ;; run_kws w voc' d'
    end.

  (** [LazyValidator._load_validator], [json_core.py:71-88]. *)
  Definition compile (voc : list akw) (n : node) : res data :=
    w <- view n ;;
    match nv_val w with
    | NBool b => Ok (if b then [] else [(u "_", VFail)])
    | _ => run_kws w voc []
    end.

  (** [LazyValidator.validate], [json_core.py:90-94] with
      [CompoundValidator.validate], [core_validators.py:86-88].  [fuel] bounds
      the nesting of sub-validators (and the iterations of the tuple loop). *)
  Fixpoint validate (voc : list akw) (fuel : nat) (n : node) (v : pv) (c : ctx) : res unit :=
    match fuel with
    | O => OutOfFuel
    | S f =>
        d <- compile voc n ;;
        for_each (fun kv => run_vobj view E (validate voc f) f (snd kv) v c) d
    end.

  (** [JsonSchema.validate], [json_core.py:114-127], on a loaded document whose
      root node is [n]: a root that is not an object gets an empty
      [CompoundValidator] and accepts everything. *)
  Definition schema_validate (voc : list akw) (fuel : nat) (n : node) (v : pv) : res unit :=
    w <- view n ;;
    match nv_val w with
    | NObj _ => validate voc fuel n v []
    | _ => Ok tt
    end.
End Graph.
