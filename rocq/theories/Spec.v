(** Declarative specifications the property theorems are stated against.
    Nothing here mentions the evaluator: [acc]/[rej] are parameters standing
    for "this schema node accepts / rejects this value at this place". *)
From Verif Require Import PyBase PyVal Validators Keywords.
From Coq Require Import QArith.
Local Open Scope Z_scope.

(** ** Scalars *)

(** "instance [v] has JSON type [t]" *)
Definition has_type (v : pv) (t : pystr) : Prop :=
  match v with
  | VNone => t = u "null"
  | VBool _ => t = u "boolean"
  | VInt _ => t = u "integer" \/ t = u "number"
  | VFloat _ | VDec _ => t = u "number"
  | VStr _ => t = u "string"
  | VList _ => t = u "array"
  | VDict _ => t = u "object"
  end.

Definition scalar {node} (x : nval node) : Prop :=
  match x with NArr _ | NObj _ => False | _ => True end.

(** "schema scalar [x] and instance [v] are the same JSON value": same text, the
    same boolean, both null, or equal numbers (neither of them a boolean). *)
Definition same_scalar {node} (x : nval node) (v : pv) : Prop :=
  match x, v with
  | NNull, VNone => True
  | NBool a, VBool b => a = b
  | NStr s, VStr t => s = t
  | NNum d, VInt z => (dec_q d == inject_Z z)%Q
  | NNum d, VFloat f => (dec_q d == float_q f)%Q
  | NNum d, VDec e => (dec_q d == dec_q e)%Q
  | _, _ => False
  end.

(** number of code points / items / members *)
Definition size_is (v : pv) (n : Z) : Prop :=
  match v with
  | VStr s => n = Z.of_nat (List.length s)
  | VList l => n = Z.of_nat (List.length l)
  | VDict d => n = Z.of_nat (List.length d)
  | _ => False
  end.

(** numeric value of an instance (Python counts booleans as 0 and 1) *)
Definition value_is (v : pv) (q : Q) : Prop :=
  match v with
  | VBool b => q = (if b then 1 else 0)%Q
  | VInt z => q = inject_Z z
  | VFloat f => q = float_q f
  | VDec d => q = dec_q d
  | _ => False
  end.

(** neither an array nor an object *)
Definition unstructured (v : pv) : Prop :=
  match v with VList _ | VDict _ => False | _ => True end.

(** equal under Python [==], for unstructured values: both null, the same text,
    or the same number (booleans being 0 and 1) *)
Definition equal_values (x y : pv) : Prop :=
  match x, y with
  | VNone, VNone => True
  | VStr s, VStr t => s = t
  | _, _ => exists p q, value_is x p /\ value_is y q /\ (p == q)%Q
  end.

(** Python's [name in v] *)
Definition has_name (v : pv) (name : pystr) : Prop :=
  match v with
  | VDict d => In name (dkeys d)
  | VStr s => exists a b, s = a ++ name ++ b
  | VList l => In (VStr name) l
  | _ => False
  end.

Definition iterable (v : pv) (l : list pv) : Prop :=
  match v with
  | VList l' => l = l'
  | VStr s => l = map (fun c => VStr [c]) s
  | VDict d => l = map (fun k => VStr k) (dkeys d)
  | _ => False
  end.

(** decimal number used by [multipleOf] for an instance *)
Definition decimal_text (E : env) (v : pv) (d : dec) : Prop :=
  match v with
  | VDec d' => d = d'
  | VInt z => d = Dec z 0
  | VFloat f => d = frepr f
  | VStr s => dec_of_str E s = Ok d
  | _ => False
  end.

(** pairwise different, for unstructured values *)
Definition all_different (l : list pv) : Prop :=
  forall i j x y, (i < j)%nat -> nth_error l i = Some x -> nth_error l j = Some y -> ~ equal_values x y.

Fixpoint count_true (l : list bool) : Z :=
  match l with
  | [] => 0
  | b :: l' => (if b then 1 else 0) + count_true l'
  end.

(** ** Schema keywords *)
Section Keywords.
  Context {node : Type}.
  Variable view : node -> res (nview node).
  Variable strx : node -> pystr.
  Variable E : env.
  Variable voc : list akw.                       (* the vocabulary in force *)
  Variable acc rej : node -> pv -> ctx -> Prop.
  Variable items : list (pystr * node).          (* members of the schema object *)

  Definition active (k : akw) : Prop := In k voc /\ In (kw_key k) (dkeys items).

  (** member [key] is named in the [properties] table *)
  Definition declared (key : pystr) : Prop :=
    In KwProperties voc /\
    exists n w props, dget (u "properties") items = Some n /\ view n = Ok w /\
      nv_val w = NObj props /\ In key (dkeys props).
  (** member [key] matches some pattern of [patternProperties] *)
  Definition pattern_matched (key : pystr) : Prop :=
    In KwPatternProperties voc /\
    exists n w pats p m, dget (u "patternProperties") items = Some n /\ view n = Ok w /\
      nv_val w = NObj pats /\ In (p, m) pats /\ re_search E p key = true.
  (** [additionalProperties] is present and is not [true] *)
  Definition additional_restricts : Prop :=
    In KwAdditionalProperties voc /\
    exists n w, dget (u "additionalProperties") items = Some n /\ view n = Ok w /\
      nv_val w <> NBool true.

  (** numeric operand of an auxiliary member, truncated to an integer *)
  Definition int_member (k : pystr) (z : Z) : Prop :=
    exists n w d, dget k items = Some n /\ view n = Ok w /\ nv_val w = NNum d /\ z = dec_int d.

  (** [exclusiveX] next to an inclusive bound: is it (equal to) true? *)
  Definition strict_flag (k : pystr) : Prop :=
    exists n w, dget k items = Some n /\ view n = Ok w /\
      (nv_val w = NBool true \/ exists d, nv_val w = NNum d /\ (dec_q d == 1)%Q).

  Definition for_members (v : pv) (P : pystr -> pv -> Prop) : Prop :=
    match v with
    | VDict d => forall key x, In (key, x) d -> P key x
    | _ => True
    end.

  (** What keyword [k] with operand node [n], whose value is [x], demands of
      instance [v] at place [c]. *)
  Definition demands (k : akw) (n : node) (x : nval node) (v : pv) (c : ctx) : Prop :=
    match k, x with
    | KwType, NStr s => has_type v s
    | KwType, NArr l => exists m, In m l /\ has_type v (item_str view strx m)
    | KwEnum, NArr l =>
        exists l1 m l2 y, l = l1 ++ m :: l2 /\
          enum_item view m = Ok y /\
          (eq_raw view y v = Ok true /\ is_nbool y = is_bool v) /\
          (forall m' y', In m' l1 -> enum_item view m' = Ok y' ->
             eq_raw view y' v = Ok false \/ (eq_raw view y' v = Ok true /\ is_nbool y' <> is_bool v))
    | KwConst, y => same_scalar y v
    | KwMaximum, NNum d =>
        exists q, value_is v q /\ (q <= dec_q d)%Q /\
                  (strict_flag (u "exclusiveMaximum") -> (q < dec_q d)%Q)
    | KwMinimum, NNum d =>
        exists q, value_is v q /\ (dec_q d <= q)%Q /\
                  (strict_flag (u "exclusiveMinimum") -> (dec_q d < q)%Q)
    | KwExclusiveMaximum, NNum d => exists q, value_is v q /\ (q < dec_q d)%Q
    | KwExclusiveMinimum, NNum d => exists q, value_is v q /\ (dec_q d < q)%Q
    | KwMultipleOf, NNum m =>
        exists d, decimal_text E v d /\
          exists z, (dec_q d == inject_Z z * dec_q m)%Q /\ Z.abs z < 10 ^ 28 /\ ~ (dec_q m == 0)%Q
    | KwMinLength, NNum d | KwMinItems, NNum d | KwMinProperties, NNum d =>
        exists s, size_is v s /\ dec_int d <= s
    | KwMaxLength, NNum d | KwMaxItems, NNum d | KwMaxProperties, NNum d =>
        exists s, size_is v s /\ s <= dec_int d
    | KwFormat, NStr f => exists test, fmt E f = Some test /\ test v = Ok true
    | KwPattern, NStr p => exists s, v = VStr s /\ re_search E p s = true
    | KwRequired, NArr l => forall m, In m l -> has_name v (item_str view strx m)
    | KwDependentRequired, NObj table =>
        match v with
        | VDict d => forall key m names, In (key, m) table -> In key (dkeys d) ->
                       iter_strs view strx m = Ok names -> forall name, In name names -> In name (dkeys d)
        | _ => True
        end
    | KwDependentSchemas, NObj table =>
        match v with
        | VDict d => forall key m, In (key, m) table -> In key (dkeys d) -> acc m v c
        | _ => True
        end
    | KwProperties, NObj props =>
        for_members v (fun key y => forall m, dget key props = Some m -> acc m y (c ++ [key]))
    | KwPatternProperties, NObj pats =>
        for_members v (fun key y => ~ declared key -> forall p m, In (p, m) pats ->
          re_ok E p = true /\ (re_search E p key = true -> acc m y (c ++ [key])))
    | KwAdditionalProperties, NBool false =>
        for_members v (fun key y => declared key \/ pattern_matched key)
    | KwAdditionalProperties, NObj _ =>
        for_members v (fun key y => declared key \/ pattern_matched key \/ acc n y (c ++ [key]))
    | KwUnevaluatedProperties, NBool false =>
        for_members v (fun key y => declared key \/ pattern_matched key \/ additional_restricts)
    | KwPropertyNames, NObj _ => for_members v (fun key y => acc n (VStr key) (c ++ [key]))
    | KwItems, NArr l =>
        exists vals, v = VList vals /\ (List.length l <= List.length vals)%nat /\
          (forall i m y, nth_error l i = Some m -> nth_error vals i = Some y ->
             acc m y (c ++ [nat_str i])) /\
          (forall m w, dget (u "additionalItems") items = Some m -> view m = Ok w ->
             nv_val w <> NBool true ->
             forall i y, (List.length l <= i)%nat -> nth_error vals i = Some y -> acc m y (c ++ [nat_str i]))
    | KwItems, NBool true => exists vals, v = VList vals
    | KwItems, _ =>
        exists vals, v = VList vals /\
          forall i y, nth_error vals i = Some y -> acc n y (c ++ [nat_str i])
    | KwPrefixItems, NArr l =>
        exists vals, v = VList vals /\ (List.length l <= List.length vals)%nat /\
          forall i m y, nth_error l i = Some m -> nth_error vals i = Some y ->
            acc m y (c ++ [nat_str i])
    | KwContains, NObj _ =>
        exists elems flags, iterable v elems /\
          Forall2 (fun y (b : bool) => if b then acc n y [] else rej n y []) elems flags /\
          (forall z, int_member (u "minContains") z -> z <= count_true flags) /\
          (dget (u "minContains") items = None -> 1 <= count_true flags) /\
          (forall z, int_member (u "maxContains") z -> z <> 0 -> count_true flags <= z)
    | KwUniqueItems, NBool true =>
        exists elems, iterable v elems /\ (forall y, In y elems -> unstructured y) /\ all_different elems
    | KwAllOf, NArr l => forall m, In m l -> acc m v c
    | KwAnyOf, NArr l =>
        exists l1 m l2, l = l1 ++ m :: l2 /\ (forall m', In m' l1 -> rej m' v c) /\ acc m v c
    | KwOneOf, NArr l =>
        exists l1 m l2, l = l1 ++ m :: l2 /\ acc m v c /\ (forall m', In m' (l1 ++ l2) -> rej m' v c)
    | KwNot, NObj _ => rej n v c
    | KwIf, NObj _ =>
        (acc n v c /\ (In KwThen voc -> forall m, dget (u "then") items = Some m -> acc m v c)) \/
        (rej n v c /\ In KwElse voc /\ exists m, dget (u "else") items = Some m /\ acc m v c)
    | _, _ => True
    end.
End Keywords.
