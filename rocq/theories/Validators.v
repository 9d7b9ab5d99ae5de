(** The validator classes of [jsoned/validators/], over an arbitrary graph of
    schema nodes. *)
From Verif Require Import PyBase PyVal Errors.
From Coq Require Import QArith.
Local Open Scope Z_scope.

(** ** What the code observes of a schema node ([jsoned/types], and
    [JsonReference] in [keywords/ref_keyword.py:14-81]). *)
Inductive nval (node : Type) : Type :=
| NNull
| NBool (b : bool)
| NNum (d : dec)
| NStr (s : pystr)
| NArr (l : list node)
| NObj (items : list (pystr * node)).
Arguments NNull {node}.
Arguments NBool {node} b.
Arguments NNum {node} d.
Arguments NStr {node} s.
Arguments NArr {node} l.
Arguments NObj {node} items.

(** [isref]: the node is a [JsonReference] whose target has this value. *)
Record nview (node : Type) := NView { nv_val : nval node; nv_ref : bool }.
Arguments NView {node} nv_val nv_ref.
Arguments nv_val {node} n.
Arguments nv_ref {node} n.

(** ** External engines the validators call (universally quantified later). *)
Record env := Env {
  re_ok : pystr -> bool;                          (* re.compile succeeds *)
  re_search : pystr -> pystr -> bool;             (* re.search finds a match *)
  fmt : pystr -> option (pv -> res bool);         (* StringFormat registry *)
  dec_of_str : pystr -> res dec                   (* Decimal(s); NaN, infinities: outside the model *)
}.

(** ** Validator objects. Sub-validators are lazy validators on schema nodes
    ([LazyValidator], [json_core.py:64-94]) or [FailValidator]. *)
Inductive sub (C : Type) : Type := SFail | SLazy (c : C).
Arguments SFail {C}.
Arguments SLazy {C} c.

(** [ObjectValidator], [object_validators.py:42-50]. *)
Record objv (C : Type) := ObjV {
  ov_data : list (pystr * C);
  ov_addl : option (sub C);
  ov_pat : option (list (pystr * C));
  ov_uneval : bool;                               (* FailValidator or None *)
  ov_names : option C
}.
Arguments ObjV {C} ov_data ov_addl ov_pat ov_uneval ov_names.
Arguments ov_data {C} o.
Arguments ov_addl {C} o.
Arguments ov_pat {C} o.
Arguments ov_uneval {C} o.
Arguments ov_names {C} o.

(** [ConditionalValidator], [composition_validators.py:67-80]. *)
Record condv (C : Type) := CondV { cv_if : option C; cv_then : option C; cv_else : option C }.
Arguments CondV {C} cv_if cv_then cv_else.
Arguments cv_if {C} c.
Arguments cv_then {C} c.
Arguments cv_else {C} c.

Inductive vobj (node C : Type) : Type :=
| VFail                                           (* core_validators.py:133 *)
| VType (expected : list pystr)                   (* core_validators.py:97 *)
| VEnum (expected : list (nval node))             (* core_validators.py:138 *)
| VConst (expected : nval node)                   (* core_validators.py:178 *)
| VMaximum (d : dec) (exclusive : bool)           (* number_validators.py:44 *)
| VMinimum (d : dec) (exclusive : bool)           (* number_validators.py:28 *)
| VMultipleOf (d : dec)                           (* number_validators.py:13 *)
| VMinLength (n : Z)                              (* string_validators.py:13 *)
| VMaxLength (n : Z)                              (* string_validators.py:27 *)
| VFormat (name : pystr)                          (* string_validators.py:41 *)
| VPattern (p : pystr)                            (* string_validators.py:55 *)
| VRequired (names : list pystr)                  (* object_validators.py:11 *)
| VMinProps (n : Z)                               (* object_validators.py:24 *)
| VMaxProps (n : Z)                               (* object_validators.py:33 *)
| VObject (o : objv C)                            (* object_validators.py:42 *)
| VDepRequired (m : list (pystr * list pystr))    (* object_validators.py:82 *)
| VDepSchemas (m : list (pystr * C))              (* object_validators.py:102 *)
| VArray (items : option C) (prefix : option (list C))   (* array_validators.py:11 *)
| VContains (c : C) (mn : Z) (mx : option Z)      (* array_validators.py:37 *)
| VMinItems (n : Z)                               (* array_validators.py:60 *)
| VMaxItems (n : Z)                               (* array_validators.py:74 *)
| VUnique                                         (* array_validators.py:88 *)
| VAllOf (l : list C)                             (* composition_validators.py:6 *)
| VAnyOf (l : list C)                             (* composition_validators.py:15 *)
| VOneOf (l : list C)                             (* composition_validators.py:31 *)
| VNot (c : C)                                    (* composition_validators.py:55 *)
| VCond (c : condv C).                            (* composition_validators.py:67 *)
Arguments VFail {node C}.
Arguments VType {node C} expected.
Arguments VEnum {node C} expected.
Arguments VConst {node C} expected.
Arguments VMaximum {node C} d exclusive.
Arguments VMinimum {node C} d exclusive.
Arguments VMultipleOf {node C} d.
Arguments VMinLength {node C} n.
Arguments VMaxLength {node C} n.
Arguments VFormat {node C} name.
Arguments VPattern {node C} p.
Arguments VRequired {node C} names.
Arguments VMinProps {node C} n.
Arguments VMaxProps {node C} n.
Arguments VObject {node C} o.
Arguments VDepRequired {node C} m.
Arguments VDepSchemas {node C} m.
Arguments VArray {node C} items prefix.
Arguments VContains {node C} c mn mx.
Arguments VMinItems {node C} n.
Arguments VMaxItems {node C} n.
Arguments VUnique {node C}.
Arguments VAllOf {node C} l.
Arguments VAnyOf {node C} l.
Arguments VOneOf {node C} l.
Arguments VNot {node C} c.
Arguments VCond {node C} c.

(** ** [Context], [core_validators.py:13-44]: the tuple of keys. *)
Definition ctx := list pystr.
(** [Context.path], [core_validators.py:36-38] *)
Definition ctx_path (c : ctx) : pystr := join (u ".") c.
(** [context + key], [core_validators.py:40-44] *)
Definition ctx_add (c : ctx) (k : pystr) : ctx := c ++ [k].

(** [TypeValidator.TYPE_MAP], [core_validators.py:98-107]. *)
Definition type_name (v : pv) : pystr :=
  match v with
  | VStr _ => u "string"
  | VInt _ => u "integer"
  | VFloat _ => u "number"
  | VDec _ => u "number"
  | VBool _ => u "boolean"
  | VList _ => u "array"
  | VDict _ => u "object"
  | VNone => u "null"
  end.

(** [TypeValidator.validate], [core_validators.py:112-122]. *)
Definition type_validate (expected : list pystr) (v : pv) (c : ctx) : res unit :=
  let t := type_name v in
  if str_mem t expected then Ok tt
  else if str_eqb t (u "integer") && str_mem (u "number") expected then Ok tt
  else raise_verr (KType expected) (ctx_path c).

(** [NumberMinimumValidator.validate], [number_validators.py:33-38]. *)
Definition minimum_validate (d : dec) (exclusive : bool) (v : pv) (c : ctx) : res unit :=
  if exclusive then
    b <- py_le_dec v d ;; if b then raise_verr (KMinimum d) (ctx_path c) else Ok tt
  else
    b <- py_lt_dec v d ;; if b then raise_verr (KMinimum d) (ctx_path c) else Ok tt.

(** [NumberMaximumValidator.validate], [number_validators.py:49-54]. *)
Definition maximum_validate (d : dec) (exclusive : bool) (v : pv) (c : ctx) : res unit :=
  if exclusive then
    b <- py_ge_dec v d ;; if b then raise_verr (KMaximum d) (ctx_path c) else Ok tt
  else
    b <- py_gt_dec v d ;; if b then raise_verr (KMaximum d) (ctx_path c) else Ok tt.

(** [len(value) >= n], else raise: [string_validators.py:17-21],
    [array_validators.py:64-68], [object_validators.py:28-30]. *)
Definition min_len_validate (k : vkind) (n : Z) (v : pv) (c : ctx) : res unit :=
  l <- py_len v ;; if l >=? n then Ok tt else raise_verr k (ctx_path c).

(** [len(value) <= n], else raise: [string_validators.py:31-35],
    [array_validators.py:78-82], [object_validators.py:37-39]. *)
Definition max_len_validate (k : vkind) (n : Z) (v : pv) (c : ctx) : res unit :=
  l <- py_len v ;; if l <=? n then Ok tt else raise_verr k (ctx_path c).

(** [RequiredPropertiesValidator.validate], [object_validators.py:15-18]. *)
Definition required_validate (names : list pystr) (v : pv) (c : ctx) : res unit :=
  for_each (fun name =>
    b <- py_contains name v ;;
    if b then Ok tt else raise_verr (KRequired name) (ctx_path c)) names.

(** [DependentRequiredValidator.validate], [object_validators.py:87-99]. *)
Definition dep_required_validate (m : list (pystr * list pystr)) (v : pv) (c : ctx) : res unit :=
  match v with
  | VDict d =>
      for_each (fun '(key, items) =>
        if dmem key d then
          for_each (fun item =>
            if dmem item d then Ok tt
            else raise_verr (KDependent key item) (ctx_path c)) items
        else Ok tt) m
  | _ => Ok tt
  end.

(** [ArrayUniqueValidators.validate], [array_validators.py:89-94]: [seen] is a
    Python set, membership by hash and [==] (equal hashable JSON scalars have
    equal hashes, so membership is [==]). *)
Fixpoint unique_loop (seen : list pv) (i : nat) (l : list pv) (c : ctx) : res unit :=
  match l with
  | [] => Ok tt
  | x :: l' =>
      if hashable x then
        if existsb (fun y => py_eq y x) seen
        then raise_verr KUnique (ctx_path c ++ nat_str i)
        else unique_loop (x :: seen) (S i) l' c
      else Raise EType
  end.
Definition unique_validate (v : pv) (c : ctx) : res unit :=
  l <- py_iter v ;; unique_loop [] 0 l c.

(** [Decimal(str(value))] for a non-Decimal [value]:
    [str] of None/bool/list/dict is never a number. *)
Definition dec_of_value (E : env) (v : pv) : res dec :=
  match v with
  | VDec d => Ok d
  | VInt z => Ok (Dec z 0)
  | VFloat f => Ok (frepr f)
  | VStr s => dec_of_str E s
  | _ => Raise EDecimal
  end.

(** [NumberMultipleOfValidator.validate], [number_validators.py:17-22]. *)
Definition multiple_of_validate (E : env) (m : dec) (v : pv) (c : ctx) : res unit :=
  d <- dec_of_value E v ;;
  z <- dec_rem_is_zero d m ;;
  if z then Ok tt else raise_verr (KMultipleOf m) (ctx_path c).

(** [StringFormatValidator.validate], [string_validators.py:45-49]. *)
Definition format_validate (E : env) (name : pystr) (v : pv) (c : ctx) : res unit :=
  match fmt E name with
  | None => Raise (EKey name)
  | Some f => b <- f v ;; if b then Ok tt else raise_verr (KFormat name) (ctx_path c)
  end.

(** [StringPatternValidator.validate], [string_validators.py:59-61]. *)
Definition pattern_validate (E : env) (p : pystr) (v : pv) (c : ctx) : res unit :=
  match v with
  | VStr s => if re_search E p s then Ok tt else raise_verr (KFormat p) (ctx_path c)
  | _ => Raise EType
  end.

Section Graph.
  Context {node : Type}.
  Variable view : node -> res (nview node).

  (** [JsonType.__eq__] and overrides against a plain value:
      [json_type.py:57-61], [json_number.py:40-48], [json_boolean.py:27-33];
      containers compare their raw list/dict, element on the left. *)
  Fixpoint eq_node (v : pv) (n : node) {struct v} : res bool :=
    w <- view n ;;
    match nv_val w with
    | NNull => Ok (match v with VNone => true | _ => false end)
    | NStr s => Ok (match v with VStr t => str_eqb s t | _ => false end)
    | NBool b => match v with VBool b' => Ok (Bool.eqb b b') | _ => Raise EType end
    | NNum d =>
        match v with
        | VFloat f => Ok (Qeq_bool (dec_q d) (dec_q (frepr f)))
        | VInt _ | VBool _ | VDec _ => Ok (opt_q_eqb (Some (dec_q d)) (num_q v))
        | _ => Raise EType
        end
    | NArr l =>
        match v with
        | VList vs =>
            if Nat.eqb (List.length l) (List.length vs) then
              (fix go (vs : list pv) (l : list node) : res bool :=
                 match vs, l with
                 | x :: vs', m :: l' =>
                     b <- eq_node x m ;; if b then go vs' l' else Ok false
                 | _, _ => Ok true
                 end) vs l
            else Ok false
        | _ => Ok false
        end
    | NObj items =>
        match v with
        | VDict d =>
            if Nat.eqb (List.length items) (List.length d) then
              let tests := map (fun '(k, x) => (k, eq_node x)) d in
              (fix go (items : list (pystr * node)) : res bool :=
                 match items with
                 | [] => Ok true
                 | (k, m) :: items' =>
                     match dget k tests with
                     | None => Ok false
                     | Some t => b <- t m ;; if b then go items' else Ok false
                     end
                 end) items
            else Ok false
        | _ => Ok false
        end
    end.

  (** [expected == value] for the unwrapped top-level value ([JsonType.value],
      [json_type.py:42-44]): a raw bool/Decimal/str/None, or a raw list/dict
      of nodes. *)
  Definition eq_raw (x : nval node) (v : pv) : res bool :=
    match x with
    | NNull => Ok (match v with VNone => true | _ => false end)
    | NStr s => Ok (match v with VStr t => str_eqb s t | _ => false end)
    | NBool b => Ok (opt_q_eqb (Some (inject_Z (bool_z b))) (num_q v))
    | NNum d => Ok (opt_q_eqb (Some (dec_q d)) (num_q v))
    | NArr l =>
        match v with
        | VList vs =>
            if Nat.eqb (List.length l) (List.length vs) then
              (fix go (vs : list pv) (l : list node) : res bool :=
                 match vs, l with
                 | x :: vs', m :: l' =>
                     b <- eq_node x m ;; if b then go vs' l' else Ok false
                 | _, _ => Ok true
                 end) vs l
            else Ok false
        | _ => Ok false
        end
    | NObj items =>
        match v with
        | VDict d =>
            if Nat.eqb (List.length items) (List.length d) then
              (fix go (items : list (pystr * node)) : res bool :=
                 match items with
                 | [] => Ok true
                 | (k, m) :: items' =>
                     match dget k d with
                     | None => Ok false
                     | Some x => b <- eq_node x m ;; if b then go items' else Ok false
                     end
                 end) items
            else Ok false
        | _ => Ok false
        end
    end.

  Definition is_nbool (x : nval node) : bool := match x with NBool _ => true | _ => false end.

  (** the "tweak for bool checking" loop, [core_validators.py:157-164] *)
  Fixpoint enum_tweak_loop (l : list (nval node)) (v : pv) : res bool :=
    match l with
    | [] => Ok false
    | item :: l' =>
        e <- eq_raw item v ;;
        if e then
          if is_nbool item || is_bool v then
            if is_nbool item && is_bool v then Ok true else enum_tweak_loop l' v
          else Ok true
        else enum_tweak_loop l' v
    end.

  (** [value in self._expected_values] *)
  Fixpoint enum_in (l : list (nval node)) (v : pv) : res bool :=
    match l with
    | [] => Ok false
    | item :: l' => e <- eq_raw item v ;; if e then Ok true else enum_in l' v
    end.

  (** [EnumValidator.validate], [core_validators.py:151-172]. *)
  Definition enum_validate (l : list (nval node)) (v : pv) (c : ctx) : res unit :=
    let cb := existsb is_nbool l in
    if is_bool v && negb cb then raise_verr KEnum (ctx_path c)
    else
      b <- (if (cb && py_eq v (VInt 1)) || py_eq v (VInt 0)
            then enum_tweak_loop l v else enum_in l v) ;;
      if b then Ok tt else raise_verr KEnum (ctx_path c).

  (** [ConstValidator.validate], [core_validators.py:182-187]. *)
  Definition const_validate (x : nval node) (v : pv) (c : ctx) : res unit :=
    if (is_nbool x || is_bool v) && negb (is_nbool x && is_bool v)
    then raise_verr KConst (ctx_path c)
    else e <- eq_raw x v ;; if e then Ok tt else raise_verr KConst (ctx_path c).

  Section Run.
    Context {C : Type}.
    Variable E : env.
    (** [validator.validate(value, context)] of a sub-validator *)
    Variable rec : C -> pv -> ctx -> res unit.

    (** [FailValidator] or a lazy sub-validator *)
    Definition run_sub (s : sub C) (v : pv) (c : ctx) : res unit :=
      match s with
      | SFail => raise_verr KFail (ctx_path c)
      | SLazy n => rec n v c
      end.

    (** the loop over [pattern_properties], [object_validators.py:66-69];
        returns [evaluated] *)
    Fixpoint pattern_loop (pats : list (pystr * C)) (k : pystr) (x : pv) (c : ctx)
      (evaluated : bool) : res bool :=
      match pats with
      | [] => Ok evaluated
      | (p, n) :: pats' =>
          if re_ok E p then
            if re_search E p k then rec n x (ctx_add c k) ;;; pattern_loop pats' k x c true
            else pattern_loop pats' k x c evaluated
          else Raise ERe
      end.

    (** body of the member loop, [object_validators.py:57-79] *)
    Definition member_validate (o : objv C) (c : ctx) (kx : pystr * pv) : res unit :=
      let (k, x) := kx in
      (match ov_names o with
       | Some n => rec n (VStr k) (ctx_add c k)
       | None => Ok tt
       end) ;;;
      match dget k (ov_data o) with
      | Some n => rec n x (ctx_add c k)
      | None =>
          evaluated <- (match ov_pat o with
                        | Some pats => pattern_loop pats k x c false
                        | None => Ok false
                        end) ;;
          if evaluated then Ok tt
          else match ov_addl o with
               | Some s => run_sub s x (ctx_add c k)
               | None =>
                   if ov_uneval o then raise_verr KFail (ctx_path (ctx_add c k)) else Ok tt
               end
      end.

    (** [ObjectValidator.validate], [object_validators.py:52-79]. *)
    Definition object_validate (o : objv C) (v : pv) (c : ctx) : res unit :=
      match v with
      | VDict d => for_each (member_validate o c) d
      | _ => Ok tt
      end.

    (** [DependentSchemasValidator.validate], [object_validators.py:103-111]. *)
    Definition dep_schemas_validate (m : list (pystr * C)) (v : pv) (c : ctx) : res unit :=
      match v with
      | VDict d => for_each (fun '(key, n) => if dmem key d then rec n v c else Ok tt) m
      | _ => Ok tt
      end.

    (** the prefix loop, [array_validators.py:21-27]: note the [continue]
        without increment. [lf] bounds the number of iterations. *)
    Fixpoint prefix_loop (lf : nat) (ps : list C) (vals : list pv) (i : nat) (c : ctx)
      : res nat :=
      match lf with
      | O => OutOfFuel
      | S lf' =>
          match nth_error ps i with
          | None => Ok i
          | Some p =>
              match nth_error vals i with
              | None => rec p VNone (ctx_add c (nat_str i)) ;;; prefix_loop lf' ps vals i c
              | Some x => rec p x (ctx_add c (nat_str i)) ;;; prefix_loop lf' ps vals (S i) c
              end
          end
      end.

    (** [while index < len(value)], [array_validators.py:32-34]; [vals] is the
        part of the array from [i] on. *)
    Fixpoint items_loop (n : C) (vals : list pv) (i : nat) (c : ctx) : res unit :=
      match vals with
      | [] => Ok tt
      | x :: vals' => rec n x (ctx_add c (nat_str i)) ;;; items_loop n vals' (S i) c
      end.

    (** [ArrayValidator.validate], [array_validators.py:15-34]; the type error
        carries no path. *)
    Definition array_validate (lf : nat) (items : option C) (prefix : option (list C))
      (v : pv) (c : ctx) : res unit :=
      match v with
      | VList vals =>
          i <- (match prefix with
                | None | Some [] => Ok O
                | Some ps => prefix_loop lf ps vals 0 c
                end) ;;
          match items with
          | None => Ok tt
          | Some n => items_loop n (skipn i vals) i c
          end
      | _ => raise_verr (KType [u "array"]) []
      end.

    (** run a sub-validator, catching [ValidationError] only *)
    Definition try_valid (m : res unit) : res (option verr) :=
      match m with
      | Ok _ => Ok None
      | Raise (EValid e) => Ok (Some e)
      | Raise e => Raise e
      | OutOfFuel => OutOfFuel
      end.

    (** [array_validators.py:45-51]: number of items the sub-schema accepts,
        each validated with a fresh context. *)
    Fixpoint count_valid (n : C) (l : list pv) : res Z :=
      match l with
      | [] => Ok 0
      | x :: l' =>
          r <- try_valid (rec n x []) ;;
          k <- count_valid n l' ;;
          Ok (match r with None => 1 + k | Some _ => k end)
      end.

    (** [ArrayContainsValidator.validate], [array_validators.py:44-57]. *)
    Definition contains_validate (n : C) (mn : Z) (mx : option Z) (v : pv) (c : ctx) : res unit :=
      l <- py_iter v ;;
      k <- count_valid n l ;;
      if k <? mn then raise_verr (KMinContains mn) (ctx_path c)
      else match mx with
           | Some m => if negb (m =? 0) && (k >? m) then raise_verr (KMaxContains m) (ctx_path c)
                       else Ok tt
           | None => Ok tt
           end.

    (** [AnyOfValidator.validate], [composition_validators.py:19-28];
        [raise None] is a [TypeError]. *)
    Fixpoint anyof_loop (l : list C) (v : pv) (c : ctx) (last : option verr) : res unit :=
      match l with
      | [] => match last with Some e => Raise (EValid e) | None => Raise EType end
      | n :: l' =>
          r <- try_valid (rec n v c) ;;
          match r with
          | None => Ok tt
          | Some e => anyof_loop l' v c (Some e)
          end
      end.

    (** [OneOfValidator.validate], [composition_validators.py:35-52]. *)
    Fixpoint oneof_loop (l : list C) (v : pv) (c : ctx) (valid : nat) (last : option verr) : res unit :=
      match l with
      | [] =>
          match valid with
          | O => match last with Some e => Raise (EValid e) | None => Raise EType end
          | S O => Ok tt
          | S (S _) => raise_verr KOneOf (ctx_path c)
          end
      | n :: l' =>
          r <- try_valid (rec n v c) ;;
          match r with
          | None => oneof_loop l' v c (S valid) last
          | Some e => oneof_loop l' v c valid (Some e)
          end
      end.

    (** [NotValidator.validate], [composition_validators.py:59-64]. *)
    Definition not_validate (n : C) (v : pv) (c : ctx) : res unit :=
      r <- try_valid (rec n v c) ;;
      match r with
      | Some _ => Ok tt
      | None => raise_verr KNot (ctx_path c)
      end.

    (** [ConditionalValidator.validate], [composition_validators.py:68-80]:
        [if "else":] is always true, so a missing else is a [KeyError]. *)
    Definition cond_validate (k : condv C) (v : pv) (c : ctx) : res unit :=
      match cv_if k with
      | None => Ok tt
      | Some i =>
          r <- try_valid (rec i v c) ;;
          match r with
          | Some _ =>
              match cv_else k with
              | Some n => rec n v c
              | None => Raise (EKey (u "else"))
              end
          | None =>
              match cv_then k with
              | Some n => rec n v c
              | None => Ok tt
              end
          end
      end.

    (** [validator.validate(value, context)] *)
    Definition run_vobj (lf : nat) (o : vobj node C) (v : pv) (c : ctx) : res unit :=
      match o with
      | VFail => raise_verr KFail (ctx_path c)
      | VType ts => type_validate ts v c
      | VEnum l => enum_validate l v c
      | VConst x => const_validate x v c
      | VMaximum d ex => maximum_validate d ex v c
      | VMinimum d ex => minimum_validate d ex v c
      | VMultipleOf d => multiple_of_validate E d v c
      | VMinLength n => min_len_validate (KMinLength n) n v c
      | VMaxLength n => max_len_validate (KMaxLength n) n v c
      | VFormat f => format_validate E f v c
      | VPattern p => pattern_validate E p v c
      | VRequired names => required_validate names v c
      | VMinProps n => min_len_validate (KMinProps n) n v c
      | VMaxProps n => max_len_validate (KMaxProps n) n v c
      | VObject o => object_validate o v c
      | VDepRequired m => dep_required_validate m v c
      | VDepSchemas m => dep_schemas_validate m v c
      | VArray items prefix => array_validate lf items prefix v c
      | VContains n mn mx => contains_validate n mn mx v c
      | VMinItems n => min_len_validate (KMinItems n) n v c
      | VMaxItems n => max_len_validate (KMaxItems n) n v c
      | VUnique => unique_validate v c
      | VAllOf l => for_each (fun n => rec n v c) l
      | VAnyOf l => anyof_loop l v c None
      | VOneOf l => oneof_loop l v c 0 None
      | VNot n => not_validate n v c
      | VCond k => cond_validate k v c
      end.
  End Run.
End Graph.
