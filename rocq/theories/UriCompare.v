(** Comparing URIs and authorities with other values, and using them as keys
    (uri.py:49-77, 205-236). *)
From Verif Require Import PyBase PyVal Uri Ident.
Local Open Scope N_scope.

(** What [==] can meet: a [Uri], an [Authority], a [str], and anything else whose
    own comparison knows none of these (numbers, [None], ...), told apart by a number. *)
Inductive thing := TUri (v : uri) | TAuth (a : authority) | TStr (s : pystr) | TOther (n : N).

Section Compare.
  Variable subauth : pystr -> option authority.
  (** [Uri.__eq__], lines 219-236 *)
  Definition uri_equals (v : uri) (x : thing) : res bool :=
    match x with
    | TUri w => Ok (uri_eq v w)
    | TStr s => uri_eq_str subauth v s
    | _ => Raise EType
    end.
  (** [Authority.__eq__], lines 60-77 *)
  Definition auth_equals (a : authority) (x : thing) : res bool :=
    match x with
    | TAuth b => Ok (auth_eq a b)
    | TStr s => b <- mk_authority subauth s ;; Ok (auth_eq a b)
    | _ => Raise EType
    end.
  (** [x == y]: the method of the left operand; [str] and the others do not know
      these classes (NotImplemented), so the right operand is asked *)
  Definition equals (x y : thing) : res bool :=
    match x, y with
    | TUri v, _ => uri_equals v y
    | TAuth a, _ => auth_equals a y
    | _, TUri w => uri_equals w x
    | _, TAuth b => auth_equals b x
    | TStr s, TStr t => Ok (str_eqb s t)
    | TOther n, TOther m => Ok (n =? m)
    | _, _ => Ok false
    end.

  (** [repr(uri)], lines 202-203 *)
  Variable printable : N -> bool.
  Definition uri_repr (v : uri) : pystr := u "Uri(" ++ repr_str printable (uri_text v) ++ u ")".
  (** [hash(x)]: [Uri.__hash__], lines 205-206, hashes the [repr]; a class with
      [__eq__] and no [__hash__] cannot be hashed (lines 57-77).  [hs] and [ho] are
      the hashes of texts and of the others *)
  Variables (hs : pystr -> Z) (ho : N -> Z).
  Definition hash (x : thing) : res Z :=
    match x with
    | TUri v => Ok (hs (uri_repr v))
    | TAuth _ => Raise EType
    | TStr s => Ok (hs s)
    | TOther n => Ok (ho n)
    end.
  (** [d.get(k)]: the entries with the hash of [k] are compared with it in turn.
      Simplification: in the order they were entered. *)
  Section Find.
    Context {A : Type}.
    Fixpoint scan (h : Z) (k : thing) (d : list (thing * A)) : res (option A) :=
      match d with
      | [] => Ok None
      | (x, a) :: d' =>
          hx <- hash x ;;
          if Z.eqb hx h then b <- equals x k ;; if b : bool then Ok (Some a) else scan h k d'
          else scan h k d'
      end.
    Definition find (k : thing) (d : list (thing * A)) : res (option A) := h <- hash k ;; scan h k d.
  End Find.
  (** [x in l] for a list: the elements are compared with [x] in turn.
      Simplification: an element that is [x] itself is compared like the others. *)
  Fixpoint among_list (x : thing) (l : list thing) : res bool :=
    match l with
    | [] => Ok false
    | y :: l' => b <- equals y x ;; if b : bool then Ok true else among_list x l'
    end.
End Compare.
