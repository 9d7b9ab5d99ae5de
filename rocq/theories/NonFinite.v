(** Numbers that are not finite: what the number keywords
    (validators/number_validators.py, validators/core_validators.py) and
    [JsonNumber] (types/json_number.py) do with NaN and the infinities.  Python's
    [json] module reads the words NaN, Infinity and -Infinity as floats, so they
    come in through values and through schemas; [JsonNumber] turns them into
    Decimals.

    Modelled: single number keywords on a single number.  The comparisons and
    operators of [decimal.Decimal] are written from the standard library, under
    the default context (InvalidOperation is trapped).  Simplified: [x in list]
    also accepts an element that is the same object, which makes a difference for
    a NaN only and is left out; Decimals made from an int or a float literal are
    exact, as in Numbers.v. *)
From Verif Require Import PyBase PyVal Numbers Validators.
From Coq Require Import QArith.
Local Open Scope Z_scope.

(** a [Decimal]; the flag of a NaN tells a signaling one *)
Inductive xdec := XFin (d : dec) | XInf (neg : bool) | XNan (signaling : bool).
(** a number: [bool] is an [int] *)
Inductive xnum :=
| NumBool (b : bool)
| NumInt (z : Z)
| NumFloat (f : pfloat)
| NumFloatInf (neg : bool)
| NumFloatNan
| NumDec (d : xdec).

(** the value of a number: a rational, an infinity, or none *)
Inductive ext := Finite (q : Q) | Infinite (neg : bool) | NotANumber.
Definition dec_ext (d : xdec) : ext :=
  match d with XFin x => Finite (dec_q x) | XInf s => Infinite s | XNan _ => NotANumber end.
Definition num_ext (x : xnum) : ext :=
  match x with
  | NumBool b => Finite (inject_Z (bool_z b))
  | NumInt z => Finite (inject_Z z)
  | NumFloat f => Finite (float_q f)
  | NumFloatInf s => Infinite s
  | NumFloatNan => NotANumber
  | NumDec d => dec_ext d
  end.
Definition signals (d : xdec) : bool := match d with XNan s => s | _ => false end.
Definition num_signals (x : xnum) : bool := match x with NumDec d => signals d | _ => false end.

(** ** Comparison with a [Decimal] (Decimal.__lt__ and the others: a NaN raises
    InvalidOperation; Decimal.__eq__: only a signaling NaN does) *)
Definition ext_leb (a b : ext) : bool :=
  match a, b with
  | NotANumber, _ | _, NotANumber => false
  | Infinite true, _ | _, Infinite false => true
  | Infinite false, _ | _, Infinite true => false
  | Finite x, Finite y => Qle_bool x y
  end.
Definition ext_eqb (a b : ext) : bool :=
  match a, b with
  | Finite x, Finite y => Qeq_bool x y
  | Infinite s, Infinite t => Bool.eqb s t
  | _, _ => false
  end.
Definition is_nan (a : ext) : bool := match a with NotANumber => true | _ => false end.
(** [x <= d], [x < d], [x >= d], [x > d], [x == d] *)
Definition ordered (f : ext -> ext -> bool) (a b : ext) : res bool :=
  if is_nan a || is_nan b then Raise EDecimal else Ok (f a b).
Definition x_le (a b : ext) : res bool := ordered ext_leb a b.
Definition x_lt (a b : ext) : res bool := ordered (fun a b => negb (ext_leb b a)) a b.
Definition x_ge (a b : ext) : res bool := ordered (fun a b => ext_leb b a) a b.
Definition x_gt (a b : ext) : res bool := ordered (fun a b => negb (ext_leb a b)) a b.
Definition x_eq (x : xnum) (d : xdec) : res bool :=
  if num_signals x || signals d then Raise EDecimal else Ok (ext_eqb (num_ext x) (dec_ext d)).

(** ** [Decimal.__mod__], as far as "is it zero" goes: a NaN gives a NaN, which is
    not zero (a signaling one raises), an infinity has no remainder, and a finite
    number is its own remainder by an infinity *)
Definition x_rem_is_zero (a b : xdec) : res bool :=
  match a, b with
  | XNan s, XNan t => if s || t then Raise EDecimal else Ok false
  | XNan s, _ | _, XNan s => if s then Raise EDecimal else Ok false
  | XInf _, _ => Raise EDecimal
  | XFin x, XInf _ => Ok (dc x =? 0)
  | XFin x, XFin y => dec_rem_is_zero x y
  end.
(** [Decimal(str(value))] unless it is one, number_validators.py:18-19 *)
Definition to_dec (x : xnum) : res xdec :=
  match x with
  | NumBool _ => Raise EDecimal
  | NumInt z => Ok (XFin (Dec z 0))
  | NumFloat f => Ok (XFin (frepr f))
  | NumFloatInf s => Ok (XInf s)
  | NumFloatNan => Ok (XNan false)
  | NumDec d => Ok d
  end.

(** ** The keywords, as they are after compilation; enum and const with numbers
    only *)
Inductive nkw :=
| NMinimum (d : xdec) (exclusive : bool)
| NMaximum (d : xdec) (exclusive : bool)
| NMultipleOf (d : xdec)
| NConst (d : xdec)
| NEnum (l : list xdec)
| NType (expected : list pystr).

Definition num_type (x : xnum) : pystr :=
  match x with NumBool _ => u "boolean" | NumInt _ => u "integer" | _ => u "number" end.
Fixpoint enum_any (l : list xdec) (x : xnum) : res bool :=
  match l with
  | [] => Ok false
  | d :: l' => b <- x_eq x d ;; if b then Ok true else enum_any l' x
  end.
(** [validator.validate(x)]: [Ok false] stands for the ValidationError of the
    keyword *)
Definition check (k : nkw) (x : xnum) : res bool :=
  match k with
  | NMinimum d ex =>                                            (* number_validators.py:33-38 *)
      b <- (if ex then x_le else x_lt) (num_ext x) (dec_ext d) ;; Ok (negb b)
  | NMaximum d ex =>                                            (* number_validators.py:49-54 *)
      b <- (if ex then x_ge else x_gt) (num_ext x) (dec_ext d) ;; Ok (negb b)
  | NMultipleOf d => a <- to_dec x ;; x_rem_is_zero a d         (* number_validators.py:17-22 *)
  | NConst d =>                                                 (* core_validators.py:182-187 *)
      match x with NumBool _ => Ok false | _ => x_eq x d end
  | NEnum l =>                                                  (* core_validators.py:151-172; [value == 0] first *)
      match x with
      | NumBool _ => Ok false
      | _ => if num_signals x then Raise EDecimal else enum_any l x
      end
  | NType ts =>                                                 (* core_validators.py:112-122 *)
      Ok (str_mem (num_type x) ts || (str_eqb (num_type x) (u "integer") && str_mem (u "number") ts))
  end.
(** a schema with several number keywords: the first that is not met ends the call *)
Fixpoint check_all (ks : list nkw) (x : xnum) : res bool :=
  match ks with
  | [] => Ok true
  | k :: ks' => b <- check k x ;; if b then check_all ks' x else Ok false
  end.

(** ** [JsonNumber], json_number.py *)
(** [__init__], lines 13-22 *)
Definition wrap_num (x : xnum) : res xdec := to_dec x.
(** the other operand: a [JsonNumber], or a plain number; a float goes through
    its text (lines 40-48, 66-74, 92-100, 118-126, 144-152) *)
Inductive xoperand := XWrapped (d : xdec) | XPlain (x : xnum).
Definition operand_num (o : xoperand) : xnum :=
  match o with
  | XWrapped d => NumDec d
  | XPlain (NumFloat f) => NumDec (XFin (frepr f))
  | XPlain x => x
  end.
Definition w_eq (a : xdec) (o : xoperand) : res bool := x_eq (operand_num o) a.
Definition w_lt (a : xdec) (o : xoperand) : res bool := x_lt (dec_ext a) (num_ext (operand_num o)).
Definition w_le (a : xdec) (o : xoperand) : res bool := x_le (dec_ext a) (num_ext (operand_num o)).
Definition w_gt (a : xdec) (o : xoperand) : res bool := x_gt (dec_ext a) (num_ext (operand_num o)).
Definition w_ge (a : xdec) (o : xoperand) : res bool := x_ge (dec_ext a) (num_ext (operand_num o)).
(** [Decimal.__add__]: a NaN gives a NaN (a signaling one raises), opposite
    infinities raise *)
Definition x_add (a b : xdec) : res xdec :=
  match a, b with
  | XNan s, XNan t => if s || t then Raise EDecimal else Ok (XNan false)
  | XNan s, _ | _, XNan s => if s then Raise EDecimal else Ok (XNan false)
  | XInf s, XInf t => if Bool.eqb s t then Ok (XInf s) else Raise EDecimal
  | XInf s, _ | _, XInf s => Ok (XInf s)
  | XFin x, XFin y => Ok (XFin (dec_add x y))
  end.
(** [__add__], lines 170-184 *)
Definition w_add (a : xdec) (o : xoperand) : res xdec :=
  match o with
  | XPlain (NumDec d) => x_add d a
  | XPlain (NumBool b) => x_add a (XFin (Dec (bool_z b) 0))
  | _ => b <- to_dec (operand_num o) ;; x_add a b
  end.
(** [__int__], lines 186-187 (Decimal.__int__: ValueError, OverflowError) *)
Definition w_int (a : xdec) : res Z :=
  match a with XFin d => Ok (dec_int d) | XInf _ => Raise EOverflow | XNan _ => Raise EValue end.
