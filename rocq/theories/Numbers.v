(** [jsoned/types/json_number.py].  A [JsonNumber] is the Decimal it holds.
    Simplification: the exponent limits of the decimal context (about
    10^6) and NaN/infinities are not modelled. *)
From Verif Require Import PyBase PyVal.
From Coq Require Import QArith.
Local Open Scope Z_scope.

(** [JsonNumber.__init__], lines 13-22.  [bool] is an [int] to [isinstance],
    and [Decimal("True")] fails; other types are refused. *)
Definition mk_number (v : pv) : res dec :=
  match v with
  | VInt z => Ok (Dec z 0)
  | VBool _ => Raise EDecimal
  | VFloat f => Ok (frepr f)
  | VDec d => Ok d
  | _ => Raise EType
  end.

(** The other operand of an operator: a [JsonNumber] or a plain value. *)
Inductive operand := Wrapped (d : dec) | Plain (v : pv).

(** Comparison of two Decimals (or a Decimal and an int): exact. *)
Definition cmp_eq (a : dec) (q : Q) : bool := Qeq_bool (dec_q a) q.
Definition cmp_lt (a : dec) (q : Q) : bool := negb (Qle_bool q (dec_q a)).
Definition cmp_le (a : dec) (q : Q) : bool := Qle_bool (dec_q a) q.
Definition cmp_gt (a : dec) (q : Q) : bool := negb (Qle_bool (dec_q a) q).
Definition cmp_ge (a : dec) (q : Q) : bool := Qle_bool q (dec_q a).

(** [__eq__], lines 40-48 *)
Definition num_eq (a : dec) (o : operand) : res bool :=
  match o with
  | Wrapped d => Ok (cmp_eq a (dec_q d))
  | Plain (VFloat f) => Ok (cmp_eq a (dec_q (frepr f)))
  | Plain (VDec d) => Ok (cmp_eq a (dec_q d))
  | Plain (VInt z) => Ok (cmp_eq a (inject_Z z))
  | Plain (VBool b) => Ok (cmp_eq a (inject_Z (bool_z b)))
  | Plain _ => Raise EType
  end.
(** [__lt__], lines 66-74 *)
Definition num_lt (a : dec) (o : operand) : res bool :=
  match o with
  | Wrapped d => Ok (cmp_lt a (dec_q d))
  | Plain (VFloat f) => Ok (cmp_lt a (dec_q (frepr f)))
  | Plain (VDec d) => Ok (cmp_lt a (dec_q d))
  | Plain (VInt z) => Ok (cmp_lt a (inject_Z z))
  | Plain (VBool b) => Ok (cmp_lt a (inject_Z (bool_z b)))
  | Plain _ => Raise EType
  end.
(** [__le__], lines 92-100 *)
Definition num_le (a : dec) (o : operand) : res bool :=
  match o with
  | Wrapped d => Ok (cmp_le a (dec_q d))
  | Plain (VFloat f) => Ok (cmp_le a (dec_q (frepr f)))
  | Plain (VDec d) => Ok (cmp_le a (dec_q d))
  | Plain (VInt z) => Ok (cmp_le a (inject_Z z))
  | Plain (VBool b) => Ok (cmp_le a (inject_Z (bool_z b)))
  | Plain _ => Raise EType
  end.
(** [__gt__], lines 118-126 *)
Definition num_gt (a : dec) (o : operand) : res bool :=
  match o with
  | Wrapped d => Ok (cmp_gt a (dec_q d))
  | Plain (VFloat f) => Ok (cmp_gt a (dec_q (frepr f)))
  | Plain (VDec d) => Ok (cmp_gt a (dec_q d))
  | Plain (VInt z) => Ok (cmp_gt a (inject_Z z))
  | Plain (VBool b) => Ok (cmp_gt a (inject_Z (bool_z b)))
  | Plain _ => Raise EType
  end.
(** [__ge__], lines 144-152 *)
Definition num_ge (a : dec) (o : operand) : res bool :=
  match o with
  | Wrapped d => Ok (cmp_ge a (dec_q d))
  | Plain (VFloat f) => Ok (cmp_ge a (dec_q (frepr f)))
  | Plain (VDec d) => Ok (cmp_ge a (dec_q d))
  | Plain (VInt z) => Ok (cmp_ge a (inject_Z z))
  | Plain (VBool b) => Ok (cmp_ge a (inject_Z (bool_z b)))
  | Plain _ => Raise EType
  end.

(** [Decimal.__add__] under the default context: exact sum, then rounding to
    28 digits, half to even. *)
Definition precision : Z := 28.
(** how many trailing digits exceed the precision *)
Fixpoint excess (fuel : nat) (m : Z) : nat :=
  match fuel with
  | O => O
  | S f => if m <? 10 ^ precision then O else S (excess f (m / 10))
  end.
Definition half_even (m p : Z) : Z :=
  let q := m / p in
  let r := m mod p in
  if p <? 2 * r then q + 1
  else if 2 * r =? p then q + q mod 2
  else q.
Definition dec_round (d : dec) : dec :=
  let m := Z.abs (dc d) in
  match excess (Z.to_nat (Z.log2 m)) m with
  | O => d
  | k =>
      let q := half_even m (10 ^ Z.of_nat k) in
      let e := de d + Z.of_nat k in
      if q =? 10 ^ precision then Dec (Z.sgn (dc d) * 10 ^ (precision - 1)) (e + 1)
      else Dec (Z.sgn (dc d) * q) e
  end.
Definition dec_add (a b : dec) : dec :=
  let e := Z.min (de a) (de b) in
  dec_round (Dec (dc a * 10 ^ (de a - e) + dc b * 10 ^ (de b - e)) e).

(** [__add__], lines 170-184 *)
Definition num_add (a : dec) (o : operand) : res dec :=
  match o with
  | Wrapped d => Ok (dec_add a d)
  | Plain (VFloat f) => Ok (dec_add a (frepr f))
  | Plain (VInt z) => Ok (dec_add a (Dec z 0))
  | Plain (VBool b) => Ok (dec_add a (Dec (bool_z b) 0))
  | Plain (VDec d) => Ok (dec_add d a)
  | Plain _ => Raise EType
  end.
(** [__int__], lines 186-187 *)
Definition num_int (a : dec) : Z := dec_int a.
