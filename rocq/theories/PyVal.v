(** Python runtime values as they occur as JSON instances. *)
From Verif Require Import PyBase.
From Coq Require Import QArith.
Local Open Scope Z_scope.

Definition scaled (b m e : Z) : Q :=
  if 0 <=? e then inject_Z (m * b ^ e) else m # Z.to_pos (b ^ (- e)).

(** exact rational value *)
Definition dec_q (d : dec) : Q := scaled 10 (dc d) (de d).

(** [float], finite: the exact value [fm * 2^fe], together with the decimal
    number printed by [repr] (what [f"{x}"] and [str(x)] give). *)
Record pfloat := PFloat { fm : Z; fe : Z; frepr : dec }.
Definition float_q (f : pfloat) : Q := scaled 2 (fm f) (fe f).

(** Python numbers admitted as JSON numbers, [jsoned/utils.py:7-9]. *)
Inductive pv : Type :=
| VNone
| VBool (b : bool)
| VInt (z : Z)
| VFloat (f : pfloat)
| VDec (d : dec)
| VStr (s : pystr)
| VList (l : list pv)
| VDict (d : list (pystr * pv)).

Definition bool_z (b : bool) : Z := if b then 1 else 0.

(** Exact value of anything Python treats as a number ([bool] is an [int]). *)
Definition num_q (v : pv) : option Q :=
  match v with
  | VBool b => Some (inject_Z (bool_z b))
  | VInt z => Some (inject_Z z)
  | VFloat f => Some (float_q f)
  | VDec d => Some (dec_q d)
  | _ => None
  end.

Definition is_bool (v : pv) : bool := match v with VBool _ => true | _ => false end.

Definition opt_q_eqb (a b : option Q) : bool :=
  match a, b with Some x, Some y => Qeq_bool x y | _, _ => false end.

(** Python [==] between plain values.  Numbers of any two types compare by
    exact mathematical value (float/Decimal comparison is exact in Python 3);
    lists pointwise, dicts as maps; different kinds are unequal. *)
Fixpoint py_eq (a b : pv) {struct a} : bool :=
  match a, b with
  | VNone, VNone => true
  | VStr s, VStr t => str_eqb s t
  | VList l, VList m =>
      (fix go (l m : list pv) : bool :=
         match l, m with
         | [], [] => true
         | x :: l', y :: m' => py_eq x y && go l' m'
         | _, _ => false
         end) l m
  | VDict d, VDict e =>
      Nat.eqb (List.length d) (List.length e) &&
      (fix go (d : list (pystr * pv)) : bool :=
         match d with
         | [] => true
         | (k, x) :: d' =>
             match dget k e with
             | Some y => py_eq x y && go d'
             | None => false
             end
         end) d
  | _, _ => opt_q_eqb (num_q a) (num_q b)
  end.

(** [len(v)] *)
Definition py_len (v : pv) : res Z :=
  match v with
  | VStr s => Ok (Z.of_nat (List.length s))
  | VList l => Ok (Z.of_nat (List.length l))
  | VDict d => Ok (Z.of_nat (List.length d))
  | _ => Raise EType
  end.

(** [name in v] for a string [name]: dict keys, substring, list element. *)
Definition py_contains (name : pystr) (v : pv) : res bool :=
  match v with
  | VDict d => Ok (dmem name d)
  | VStr s => Ok (str_in name s)
  | VList l => Ok (existsb (fun x => py_eq x (VStr name)) l)
  | _ => Raise EType
  end.

(** [for item in v] *)
Definition py_iter (v : pv) : res (list pv) :=
  match v with
  | VList l => Ok l
  | VStr s => Ok (map (fun c => VStr [c]) s)
  | VDict d => Ok (map (fun kx => VStr (fst kx)) d)
  | _ => Raise EType
  end.

(** Python hashability: lists and dicts cannot be put in a set. *)
Definition hashable (v : pv) : bool :=
  match v with VList _ | VDict _ => false | _ => true end.

(** [int(d)] for a Decimal: truncation toward zero. *)
Definition dec_int (d : dec) : Z :=
  if 0 <=? de d then dc d * 10 ^ de d else Z.quot (dc d) (10 ^ (- de d)).

(** [a % b] for Decimals under the default 28-digit context, as far as
    "is it zero" goes; [decimal.InvalidOperation] when [b] is zero or the
    integer quotient needs more than 28 digits. *)
Definition dec_rem_is_zero (a b : dec) : res bool :=
  let e := Z.min (de a) (de b) in
  let x := dc a * 10 ^ (de a - e) in
  let y := dc b * 10 ^ (de b - e) in
  if y =? 0 then Raise EDecimal
  else if 10 ^ 28 <=? Z.abs (Z.quot x y) then Raise EDecimal
  else Ok (Z.rem x y =? 0).

(** Comparison [a < b] / [a <= b] of a plain value with a Decimal; only
    numbers are ordered against numbers. *)
Definition py_lt_dec (v : pv) (d : dec) : res bool :=
  match num_q v with
  | Some q => Ok (negb (Qle_bool (dec_q d) q))
  | None => Raise EType
  end.
Definition py_le_dec (v : pv) (d : dec) : res bool :=
  match num_q v with
  | Some q => Ok (Qle_bool q (dec_q d))
  | None => Raise EType
  end.
Definition py_gt_dec (v : pv) (d : dec) : res bool :=
  match num_q v with
  | Some q => Ok (negb (Qle_bool q (dec_q d)))
  | None => Raise EType
  end.
Definition py_ge_dec (v : pv) (d : dec) : res bool :=
  match num_q v with
  | Some q => Ok (Qle_bool (dec_q d) q)
  | None => Raise EType
  end.
