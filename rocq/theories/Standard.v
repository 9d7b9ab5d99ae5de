(** What JSON Schema (draft 2020-12: "Core" sections 7, 8, 10, 11 and "Validation"
    sections 6, 7) says a schema means, for the keywords the package has classes
    for.  Written from the standard: nothing here comes from /repo, and nothing
    mentions the model of the code. *)
From Verif Require Import PyBase PyVal.
From Coq Require Import QArith.
Local Open Scope Z_scope.
Local Notation length := List.length (only parsing).

(** the number a value is; a float is the decimal it is written as *)
Definition numeral (v : pv) : option Q :=
  match v with
  | VInt z => Some (inject_Z z)
  | VFloat f => Some (dec_q (frepr f))
  | VDec d => Some (dec_q d)
  | _ => None
  end.
Definition whole (v : pv) (z : Z) : Prop := exists q, numeral v = Some q /\ (q == inject_Z z)%Q.

(** Core 4.2.2: equality of JSON values *)
Inductive same : pv -> pv -> Prop :=
| same_null : same VNone VNone
| same_bool b : same (VBool b) (VBool b)
| same_text s : same (VStr s) (VStr s)
| same_number x y p q : numeral x = Some p -> numeral y = Some q -> (p == q)%Q -> same x y
| same_array l m : Forall2 same l m -> same (VList l) (VList m)
| same_object d e : (forall k x, dget k d = Some x -> exists y, dget k e = Some y /\ same x y) ->
    (forall k, dget k d = None -> dget k e = None) -> same (VDict d) (VDict e).

(** Validation 6.1.1 *)
Definition is_type (v : pv) (t : pystr) : Prop :=
  match v with
  | VNone => t = u "null"
  | VBool _ => t = u "boolean"
  | VStr _ => t = u "string"
  | VList _ => t = u "array"
  | VDict _ => t = u "object"
  | _ => t = u "number" \/ (t = u "integer" /\ exists z, whole v z)
  end.

(** how many elements satisfy [P] *)
Inductive count (P : pv -> Prop) : list pv -> Z -> Prop :=
| count_nil : count P [] 0
| count_yes x l n : P x -> count P l n -> count P (x :: l) (1 + n)
| count_no x l n : ~ P x -> count P l n -> count P (x :: l) n.

(** What a schema means: which values are valid, and which members of an object it
    evaluates (Core 11.3 needs the second). *)
Record meaning := Meaning { valid : pv -> Prop; evaluates : pv -> pystr -> Prop }.
(** The operand of a keyword: its value, what it means as a schema, what its
    elements mean, what its members mean. *)
Record operand := Operand { raw : pv; self : meaning; each : list meaning; named : list (pystr * meaning) }.

Section Standard.
  Variable matches : pystr -> pystr -> Prop.    (* the pattern matches somewhere in the text *)
  Variable conforms : pystr -> pystr -> Prop.   (* the text is of this format *)

  Section Object.
    Variable t : list (pystr * operand).
    Definition given (k : string) (P : operand -> Prop) : Prop := forall m, dget (u k) t = Some m -> P m.

    Definition listed (key : pystr) : Prop := exists m s, dget (u "properties") t = Some m /\ In (key, s) (named m).
    Definition matched (key : pystr) : Prop :=
      exists m p s, dget (u "patternProperties") t = Some m /\ In (p, s) (named m) /\ matches p key.

    (** members evaluated by the other keywords of the object (Core 11.3) *)
    Definition evaluated (v : pv) (key : pystr) : Prop :=
      listed key \/ matched key \/
      (exists m, dget (u "additionalProperties") t = Some m) \/
      (exists m s, dget (u "allOf") t = Some m /\ In s (each m) /\ evaluates s v key) \/
      (exists k m s, (k = u "anyOf" \/ k = u "oneOf") /\ dget k t = Some m /\ In s (each m) /\ valid s v /\ evaluates s v key) \/
      (exists m, dget (u "if") t = Some m /\ valid (self m) v /\
         (evaluates (self m) v key \/ exists n, dget (u "then") t = Some n /\ evaluates (self n) v key)) \/
      (exists m n, dget (u "if") t = Some m /\ ~ valid (self m) v /\ dget (u "else") t = Some n /\ evaluates (self n) v key) \/
      (exists m k s d, dget (u "dependentSchemas") t = Some m /\ v = VDict d /\ In k (dkeys d) /\ In (k, s) (named m) /\ evaluates s v key) \/
      (exists m, dget (u "$ref") t = Some m /\ evaluates (self m) v key).

    Definition before_items : nat := match dget (u "prefixItems") t with Some m => length (each m) | None => O end.

    Record object_valid (v : pv) : Prop := {
      (* Validation 6.1 *)
      st_type : given "type" (fun m =>
        (exists s, raw m = VStr s /\ is_type v s) \/ (exists l s, raw m = VList l /\ In (VStr s) l /\ is_type v s));
      st_enum : given "enum" (fun m => exists l y, raw m = VList l /\ In y l /\ same y v);
      st_const : given "const" (fun m => same (raw m) v);
      (* 6.2 *)
      st_multiple : given "multipleOf" (fun m => forall p q, numeral (raw m) = Some p -> numeral v = Some q -> exists z, (q == inject_Z z * p)%Q);
      st_max : given "maximum" (fun m => forall p q, numeral (raw m) = Some p -> numeral v = Some q -> (q <= p)%Q);
      st_xmax : given "exclusiveMaximum" (fun m => forall p q, numeral (raw m) = Some p -> numeral v = Some q -> (q < p)%Q);
      st_min : given "minimum" (fun m => forall p q, numeral (raw m) = Some p -> numeral v = Some q -> (p <= q)%Q);
      st_xmin : given "exclusiveMinimum" (fun m => forall p q, numeral (raw m) = Some p -> numeral v = Some q -> (p < q)%Q);
      (* 6.3 *)
      st_max_length : given "maxLength" (fun m => forall n s, whole (raw m) n -> v = VStr s -> Z.of_nat (length s) <= n);
      st_min_length : given "minLength" (fun m => forall n s, whole (raw m) n -> v = VStr s -> n <= Z.of_nat (length s));
      st_pattern : given "pattern" (fun m => forall p s, raw m = VStr p -> v = VStr s -> matches p s);
      (* 6.4 *)
      st_max_items : given "maxItems" (fun m => forall n l, whole (raw m) n -> v = VList l -> Z.of_nat (length l) <= n);
      st_min_items : given "minItems" (fun m => forall n l, whole (raw m) n -> v = VList l -> n <= Z.of_nat (length l));
      st_unique : given "uniqueItems" (fun m => raw m = VBool true -> forall l i j x y, v = VList l ->
        (i < j)%nat -> nth_error l i = Some x -> nth_error l j = Some y -> ~ same x y);
      st_contains : given "contains" (fun m => forall l, v = VList l -> exists n, count (valid (self m)) l n /\
        match dget (u "minContains") t with Some b => forall z, whole (raw b) z -> z <= n | None => 1 <= n end /\
        given "maxContains" (fun b => forall z, whole (raw b) z -> n <= z));
      (* 6.5 *)
      st_max_properties : given "maxProperties" (fun m => forall n d, whole (raw m) n -> v = VDict d -> Z.of_nat (length d) <= n);
      st_min_properties : given "minProperties" (fun m => forall n d, whole (raw m) n -> v = VDict d -> n <= Z.of_nat (length d));
      st_required : given "required" (fun m => forall l name d, raw m = VList l -> In (VStr name) l -> v = VDict d -> In name (dkeys d));
      st_dependent_required : given "dependentRequired" (fun m => forall tb key l name d, raw m = VDict tb -> In (key, VList l) tb ->
        v = VDict d -> In key (dkeys d) -> In (VStr name) l -> In name (dkeys d));
      (* 7, as an assertion *)
      st_format : given "format" (fun m => forall f s, raw m = VStr f -> v = VStr s -> conforms f s);
      (* Core 10.2 *)
      st_all : given "allOf" (fun m => forall s, In s (each m) -> valid s v);
      st_any : given "anyOf" (fun m => exists s, In s (each m) /\ valid s v);
      st_one : given "oneOf" (fun m => exists l s l', each m = l ++ s :: l' /\ valid s v /\ forall s', In s' (l ++ l') -> ~ valid s' v);
      st_not : given "not" (fun m => ~ valid (self m) v);
      st_then : given "if" (fun m => valid (self m) v -> given "then" (fun n => valid (self n) v));
      st_else : given "if" (fun m => ~ valid (self m) v -> given "else" (fun n => valid (self n) v));
      st_dependent_schemas : given "dependentSchemas" (fun m => forall key s d, v = VDict d -> In key (dkeys d) -> In (key, s) (named m) -> valid s v);
      (* 10.3.1 *)
      st_prefix : given "prefixItems" (fun m => forall l i s y, v = VList l -> nth_error (each m) i = Some s -> nth_error l i = Some y -> valid s y);
      st_items : given "items" (fun m => forall l i y, v = VList l -> (before_items <= i)%nat -> nth_error l i = Some y -> valid (self m) y);
      (* 10.3.2 *)
      st_properties : given "properties" (fun m => forall d key y s, v = VDict d -> In (key, y) d -> In (key, s) (named m) -> valid s y);
      st_pattern_properties : given "patternProperties" (fun m => forall d key y p s, v = VDict d -> In (key, y) d ->
        In (p, s) (named m) -> matches p key -> valid s y);
      st_additional : given "additionalProperties" (fun m => forall d key y, v = VDict d -> In (key, y) d ->
        ~ listed key -> ~ matched key -> valid (self m) y);
      st_names : given "propertyNames" (fun m => forall d key y, v = VDict d -> In (key, y) d -> valid (self m) (VStr key));
      (* 11.3 *)
      st_unevaluated : given "unevaluatedProperties" (fun m => forall d key y, v = VDict d -> In (key, y) d ->
        ~ evaluated v key -> valid (self m) y);
      (* 8.2.3.1; the operand is the schema referred to *)
      st_ref : given "$ref" (fun m => valid (self m) v)
    }.
    Definition object_meaning : meaning :=
      Meaning object_valid (fun v key => evaluated v key \/ exists m, dget (u "unevaluatedProperties") t = Some m).
  End Object.

  (** Core 4.3: a schema is a boolean or an object *)
  Fixpoint means (s : pv) : meaning :=
    match s with
    | VBool b => Meaning (fun _ => b = true) (fun _ _ => False)
    | VDict d => object_meaning (map (fun kx => (fst kx, Operand (snd kx) (means (snd kx))
        (match snd kx with VList l => map means l | _ => [] end)
        (match snd kx with VDict e => map (fun ky => (fst ky, means (snd ky))) e | _ => [] end))) d)
    | _ => Meaning (fun _ => False) (fun _ _ => False)
    end.
End Standard.
