(** Python-level basics shared by every model file: strings, exceptions as
    values, ordered dictionaries, and the few [str] methods the code uses. *)
From Coq Require Export List ZArith NArith Bool Lia String Ascii Permutation.
From Coq Require Import DecimalNat.
Export ListNotations.

(** ** Strings: a Python [str] is a sequence of unicode code points. *)
Definition pystr := list N.

(** ASCII literals. *)
Definition u (s : string) : pystr := map N_of_ascii (list_ascii_of_string s).
Arguments u s%string.

Fixpoint str_eqb (a b : pystr) : bool :=
  match a, b with
  | [], [] => true
  | x :: a', y :: b' => N.eqb x y && str_eqb a' b'
  | _, _ => false
  end.

(** [decimal.Decimal], finite: coefficient * 10^exponent.  Simplification: the
    sign of zero, NaN and infinities are not modelled. *)
Record dec := Dec { dc : Z; de : Z }.

(** ** Exceptions.  [EValid] is [jsoned.errors.ValidationError] (and
    subclasses), described by what the validator passed to its constructor
    (but for the operands of enum and const, which may hold nodes). *)
Inductive vkind : Type :=
| KFail                                   (* FailValidator *)
| KNot                                    (* NotValidator *)
| KOneOf                                  (* OneOfValidator, more than one *)
| KType (expected : list pystr)
| KEnum
| KConst
| KMinimum (d : dec)
| KMaximum (d : dec)
| KMultipleOf (d : dec)
| KMinLength (n : Z)
| KMaxLength (n : Z)
| KFormat (expected : pystr)
| KMinItems (n : Z)
| KMaxItems (n : Z)
| KMinContains (n : Z)
| KMaxContains (n : Z)
| KUnique
| KRequired (property : pystr)
| KMinProps (n : Z)
| KMaxProps (n : Z)
| KDependent (property expected : pystr).

Record verr := VErr { ve_kind : vkind; ve_path : pystr }.

Inductive exn : Type :=
| EValid (e : verr)
| ESchemaParse                            (* jsoned.errors.SchemaParseError *)
| EKey (k : pystr)                        (* KeyError *)
| EIndex                                  (* IndexError *)
| EType                                   (* TypeError *)
| EValue                                  (* ValueError (not a ValidationError) *)
| EAttr                                   (* AttributeError *)
| EDecimal                                (* decimal.InvalidOperation *)
| ERe                                     (* re.error *)
| EFileNotFound                           (* FileNotFoundError *)
| ELoad                                   (* jsoned.errors.JsonLoadError *)
| EOverflow                               (* OverflowError *)
| EImport                                 (* ImportError *)
| EOther                                  (* any other exception of an external callee *)
| EUnmodelled                             (* behaviour outside the model *)
| ENeeds (a : nat).                       (* not of Python: a signal of Live.v, "this node is to be read first" *)

(** ** Results: value, exception, or no answer within the recursion budget. *)
Inductive res (A : Type) : Type :=
| Ok (a : A)
| Raise (e : exn)
| OutOfFuel.
Arguments Ok {A} a.
Arguments Raise {A} e.
Arguments OutOfFuel {A}.

Definition bind {A B} (m : res A) (k : A -> res B) : res B :=
  match m with
  | Ok a => k a
  | Raise e => Raise e
  | OutOfFuel => OutOfFuel
  end.

Notation "x <- m ;; k" := (bind m (fun x => k))
  (at level 61, m at next level, right associativity).
Notation "' p <- m ;; k" := (bind m (fun x => let p := x in k))
  (at level 61, p pattern, m at next level, right associativity).
Notation "m ;;; k" := (bind m (fun _ => k))
  (at level 61, right associativity).

(** [for x in l: f(x)] *)
Fixpoint for_each {A} (f : A -> res unit) (l : list A) : res unit :=
  match l with
  | [] => Ok tt
  | x :: l' => f x ;;; for_each f l'
  end.

(** [[f(x) for x in l]] *)
Fixpoint map_res {A B} (f : A -> res B) (l : list A) : res (list B) :=
  match l with
  | [] => Ok []
  | x :: l' => y <- f x ;; ys <- map_res f l' ;; Ok (y :: ys)
  end.

(** ** Dictionaries: insertion-ordered association lists. *)
Section Dict.
  Context {A : Type}.
  Fixpoint dget (k : pystr) (d : list (pystr * A)) : option A :=
    match d with
    | [] => None
    | (k', v) :: d' => if str_eqb k k' then Some v else dget k d'
    end.
  Definition dmem (k : pystr) (d : list (pystr * A)) : bool :=
    match dget k d with Some _ => true | None => false end.
  (** [d[k] = v]: an existing key keeps its position. *)
  Fixpoint dset (k : pystr) (v : A) (d : list (pystr * A)) : list (pystr * A) :=
    match d with
    | [] => [(k, v)]
    | (k', v') :: d' =>
        if str_eqb k k' then (k', v) :: d' else (k', v') :: dset k v d'
    end.
  (** [del d[k]] when present. *)
  Fixpoint ddel (k : pystr) (d : list (pystr * A)) : list (pystr * A) :=
    match d with
    | [] => []
    | (k', v') :: d' => if str_eqb k k' then d' else (k', v') :: ddel k d'
    end.
  Definition dkeys (d : list (pystr * A)) : list pystr := map fst d.
End Dict.

(** [x in l] for lists of strings. *)
Definition str_mem (x : pystr) (l : list pystr) : bool := existsb (str_eqb x) l.

(** ** [str] methods. *)
(** [s.startswith(p)] *)
Fixpoint startswith (p s : pystr) : bool :=
  match p, s with
  | [], _ => true
  | x :: p', y :: s' => N.eqb x y && startswith p' s'
  | _ :: _, [] => false
  end.

(** [p in s] (substring test) *)
Fixpoint str_in (p s : pystr) : bool :=
  startswith p s ||
  match s with
  | [] => false
  | _ :: s' => str_in p s'
  end.

(** [s.replace(p, r)] for non-empty [p]: leftmost, non-overlapping. [skip]
    counts the characters of the current occurrence still to be dropped. *)
Fixpoint replace_aux (p r : pystr) (skip : nat) (s : pystr) : pystr :=
  match s with
  | [] => []
  | c :: s' =>
      match skip with
      | S k => replace_aux p r k s'
      | O => if startswith p s
             then r ++ replace_aux p r (List.length p - 1) s'
             else c :: replace_aux p r 0 s'
      end
  end.
Definition replace (p r s : pystr) : pystr := replace_aux p r 0 s.

(** [s.split(c)] for a one-character separator. *)
Fixpoint split (c : N) (s : pystr) : list pystr :=
  match s with
  | [] => [[]]
  | x :: s' =>
      match split c s' with
      | [] => [[x]]               (* unreachable *)
      | w :: ws => if N.eqb x c then [] :: w :: ws else (x :: w) :: ws
      end
  end.

(** [sep.join(l)] *)
Fixpoint join (sep : pystr) (l : list pystr) : pystr :=
  match l with
  | [] => []
  | [w] => w
  | w :: ws => w ++ sep ++ join sep ws
  end.

(** [str(n)] for a non-negative [int]. *)
Fixpoint uint_chars (d : Decimal.uint) : pystr :=
  match d with
  | Decimal.Nil => []
  | Decimal.D0 d => 48%N :: uint_chars d
  | Decimal.D1 d => 49%N :: uint_chars d
  | Decimal.D2 d => 50%N :: uint_chars d
  | Decimal.D3 d => 51%N :: uint_chars d
  | Decimal.D4 d => 52%N :: uint_chars d
  | Decimal.D5 d => 53%N :: uint_chars d
  | Decimal.D6 d => 54%N :: uint_chars d
  | Decimal.D7 d => 55%N :: uint_chars d
  | Decimal.D8 d => 56%N :: uint_chars d
  | Decimal.D9 d => 57%N :: uint_chars d
  end.
Definition nat_str (n : nat) : pystr := uint_chars (Nat.to_uint n).
