(** Comparing two wrapped values with one another: [JsonType.__eq__], [__lt__],
    [__le__], [__gt__], [__ge__] and [__bool__] ([types/json_type.py:57-88]) with
    the overrides in [types/json_number.py:40-152] and [types/json_boolean.py:27-33].
    References are left out ([EUnmodelled], from [hview]). *)
From Verif Require Import PyBase PyVal Validators Numbers Uri Heap.
From Coq Require Import QArith.
Local Open Scope nat_scope.
Local Notation length := List.length (only parsing).

Section Compare.
  Variable h : heap.

  (** ** The standard library on the raw lists and dicts of nodes.  Elements are
      compared by identity first, then with [==], the left one deciding. *)
  Section Elements.
    Variable eq : addr -> addr -> res bool.
    Definition identical_or_equal (x y : addr) : res bool := if Nat.eqb x y then Ok true else eq x y.
    (** [list == list], after the lengths were found equal *)
    Fixpoint lists_equal (l m : list addr) : res bool :=
      match l, m with
      | x :: l', y :: m' => b <- identical_or_equal x y ;; if b then lists_equal l' m' else Ok false
      | _, _ => Ok true
      end.
    (** [dict == dict], after the lengths were found equal *)
    Fixpoint dicts_equal (d e : list (pystr * addr)) : res bool :=
      match d with
      | [] => Ok true
      | (k, x) :: d' =>
          match dget k e with
          | None => Ok false
          | Some y => b <- identical_or_equal x y ;; if b then dicts_equal d' e else Ok false
          end
      end.
    (** [list < list] and the like: the first elements that are not equal decide
        ([cmp]); without any, the lengths *)
    Fixpoint lists_ordered (cmp : addr -> addr -> res bool) (sizes : comparison -> bool) (l m : list addr) : res bool :=
      match l, m with
      | x :: l', y :: m' => b <- identical_or_equal x y ;; if b then lists_ordered cmp sizes l' m' else cmp x y
      | _, _ => Ok (sizes (Nat.compare (length l) (length m)))
      end.
  End Elements.

  (** ** [a == b].  [fuel] bounds the depth. *)
  Fixpoint nodes_equal (fuel : nat) (a b : addr) : res bool :=
    match fuel with
    | O => OutOfFuel
    | S f =>
        va <- hview h a ;;
        vb <- hview h b ;;
        match nv_val va, nv_val vb with
        | NBool x, NBool y => Ok (Bool.eqb x y)
        | NBool _, _ => Raise EType                                  (* json_boolean.py:33 *)
        | NNum d, NNum e => num_eq d (Wrapped e)
        | NNum _, _ => Raise EType                                   (* json_number.py:48 *)
        | NNull, NNull => Ok true
        | NStr s, NStr t => Ok (str_eqb s t)
        | NArr l, NArr m => if Nat.eqb (length l) (length m) then lists_equal (nodes_equal f) l m else Ok false
        | NObj d, NObj e => if Nat.eqb (length d) (length e) then dicts_equal (nodes_equal f) d e else Ok false
        | _, _ => Ok false
        end
    end.

  (** ** [a < b], [a <= b], [a > b], [a >= b] *)
  Inductive order := Lower | AtMost | Greater | AtLeast.
  Definition by_order (o : order) (c : comparison) : bool :=
    match o, c with
    | Lower, Lt | AtMost, Lt | AtMost, Eq | Greater, Gt | AtLeast, Gt | AtLeast, Eq => true
    | _, _ => false
    end.
  (** [str < str]: by code points *)
  Fixpoint text_compare (s t : pystr) : comparison :=
    match s, t with
    | [], [] => Eq
    | [], _ :: _ => Lt
    | _ :: _, [] => Gt
    | c :: s', d :: t' => match N.compare c d with Eq => text_compare s' t' | r => r end
    end.
  Definition num_order (o : order) (d : dec) (x : operand) : res bool :=
    match o with Lower => num_lt d x | AtMost => num_le d x | Greater => num_gt d x | AtLeast => num_ge d x end.
  Fixpoint nodes_ordered (fuel : nat) (o : order) (a b : addr) : res bool :=
    match fuel with
    | O => OutOfFuel
    | S f =>
        va <- hview h a ;;
        vb <- hview h b ;;
        match nv_val va, nv_val vb with
        | NNum d, NNum e => num_order o d (Wrapped e)
        | NNum _, _ => Raise EType                                   (* json_number.py:74, 100, 126, 152 *)
        | NBool x, NBool y => Ok (by_order o (Z.compare (bool_z x) (bool_z y)))
        | NBool x, NNum d => Ok (by_order o (Qcompare (inject_Z (bool_z x)) (dec_q d)))   (* a bool is an int *)
        | NStr s, NStr t => Ok (by_order o (text_compare s t))
        | NArr l, NArr m => lists_ordered (nodes_equal f) (nodes_ordered f o) (by_order o) l m
        | _, _ => Raise EType
        end
    end.

  (** ** [bool(a)], [json_type.py:87-88] *)
  Definition node_bool (a : addr) : res bool :=
    w <- hview h a ;;
    Ok (match nv_val w with
        | NNull => false
        | NBool b => b
        | NNum d => negb (Qeq_bool (dec_q d) 0)
        | NStr s => match s with [] => false | _ => true end
        | NArr l => match l with [] => false | _ => true end
        | NObj d => match d with [] => false | _ => true end
        end).
End Compare.
