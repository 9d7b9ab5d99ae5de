(** [SchemaParseError] ([jsoned/errors/schema_parse_error.py]): which object of the
    schema it is raised for, its [path] and its text. *)
From Verif Require Import PyBase PyVal Regex Numbers Uri Pointer Store Validators Keywords Heap Doc Validate.
Local Open Scope nat_scope.

(** [SchemaParseError.__init__], lines 11-15: the text and [error.path] *)
Record parse_error := ParseError { pe_text : pystr; pe_path : list pystr }.

(** [for_invalid_keyword_value] and [for_keyword_missing_dependency], lines 17-29:
    the line with the keyword is a statement of its own, so the text ends before it *)
Definition classmethod_text (path : list pystr) : pystr :=
  u "Parsing failed at `" ++ pointer_str path ++ u "`. Passed document is not a valid json schema object. ".
(** [format_keyword.py:18-22]; [StringFormat] is the one instance of [_StringFormat] *)
Definition format_text (path : list pystr) (name : pystr) : pystr :=
  u "Parsing failed at `" ++ pointer_str path ++ u "`. Unrecognized format type `" ++ name
  ++ u "`.Please use _StringFormat to register your custom format type.".
(** [contains_keyword.py:19, 24] *)
Definition bound_text (key : pystr) : pystr :=
  u "`" ++ key ++ u "` property must be a positive integer.".

Section Raised.
  Variable view : addr -> res (nview addr).
  Variable strx : addr -> pystr.
  Variable E : env.
  Notation data := (list (pystr * vobj addr addr)).

  (** the keyword whose [apply] raises it: the first one that does, in the order of
      the vocabulary, [json_core.py:79-86] *)
  Fixpoint raising_keyword (w : nview addr) (voc : list akw) (d : data) : option akw :=
    match voc with
    | [] => None
    | k :: voc' =>
        match step_kw view strx E w k d with
        | Ok d' => raising_keyword w voc' d'
        | Raise ESchemaParse => Some k
        | _ => None
        end
    end.
  (** [node[key].type != JsonType.NUMBER], [contains_keyword.py:18, 23] *)
  Definition not_number (items : list (pystr * addr)) (key : pystr) : bool :=
    match opnd view items key with Ok (NView (NNum _) _) | Raise _ | OutOfFuel => false | _ => true end.
  (** the text a keyword gives, by the place of the object [node] it is applied to *)
  Definition raised_text (k : akw) (items : list (pystr * addr)) (path : list pystr) : pystr :=
    match k with
    | KwFormat =>                               (* format_keyword.py:13-22 *)
        match opnd view items (kw_key KwFormat) with
        | Ok (NView (NStr s) _) => format_text path s
        | _ => classmethod_text path
        end
    | KwContains =>                             (* contains_keyword.py:12-25 *)
        match opnd view items (kw_key KwContains) with
        | Ok (NView (NObj _) _) =>
            if not_number items (u "minContains") then bound_text (u "minContains")
            else bound_text (u "maxContains")
        | _ => classmethod_text path
        end
    | _ => classmethod_text path
    end.
  (** the error for the object [a], with [path] as [JsonType.path] gives it
      ([types/json_type.py:46-55]) *)
  Definition error_for (h : heap) (voc : list akw) (a : addr) : res parse_error :=
    p <- node_path h a ;;
    w <- view a ;;
    match nv_val w, raising_keyword w voc [] with
    | NObj items, Some k => Ok (ParseError (raised_text k items p) p)
    | _, _ => Raise EUnmodelled
    end.

  (** Keywords.v's [compile], [validate] and [schema_validate] do not say for which
      object the error is raised; here they do, by the signal [ENeeds]. *)
  Definition told_at {A} (a : addr) (r : res A) : res A :=
    match r with Raise ESchemaParse => Raise (ENeeds a) | _ => r end.
  (** [LazyValidator.validate], [json_core.py:90-94] *)
  Fixpoint validate_at (voc : list akw) (fuel : nat) (a : addr) (v : pv) (c : ctx) : res unit :=
    match fuel with
    | O => OutOfFuel
    | S f =>
        d <- told_at a (compile view strx E voc a) ;;
        for_each (fun kv => run_vobj view E (validate_at voc f) f (snd kv) v c) d
    end.
  (** [JsonSchema.validate], [json_core.py:114-127], on a loaded document *)
  Definition schema_validate_at (voc : list akw) (fuel : nat) (a : addr) (v : pv) : res unit :=
    w <- view a ;;
    match nv_val w with
    | NObj _ => validate_at voc fuel a v []
    | _ => Ok tt
    end.
  (** the [SchemaParseError] a call of [validate] raises, if it raises one *)
  Definition validate_error (h : heap) (voc : list akw) (fuel : nat) (a : addr) (v : pv) : res (option parse_error) :=
    match schema_validate_at voc fuel a v with
    | Raise (ENeeds b) => e <- error_for h voc b ;; Ok (Some e)
    | OutOfFuel => OutOfFuel
    | _ => Ok None
    end.
End Raised.

Section Document.
  Variable auth : pystr -> option authority.
  Variable dig : N -> option Z.
  Variable strx : heap -> addr -> pystr.
  Variable fetch : uri -> res pv.
  (** the same for a document that is loaded first, as Validate.v's [document_validate] *)
  Definition document_error (E : env) (voc : list akw) (n fuel : nat) (s : nat) (v : pv) : M (option parse_error) :=
    _ <~ load_n auth dig strx fetch n s ;;
    x <~ schema_at s ;;
    w <~ get_world ;;
    lift (validate_error (see auth dig strx fetch n w) (strx (w_heap w)) E (w_heap w) voc fuel (s_value x) v).
End Document.
