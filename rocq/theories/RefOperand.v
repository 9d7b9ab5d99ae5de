(** A keyword whose operand is a reference: [{"minimum": {"$ref": "#/limits/low"}}].
    [JsonReference] ([keywords/ref_keyword.py:14-81]) stands in for its target, but it
    is neither a number nor a text nor a list, and the keyword classes in
    [jsoned/keywords/] differ in what they ask of it: [.type], [.value], [int()],
    [str()], or to be iterated over.  [Keywords.apply] leaves the targets that are no
    objects out; here they are put in.

    Modelled: a schema with a single keyword, of a document that is loaded; the operand
    is a plain JSON value, or a reference to such a value, or a reference to a
    reference, to any depth.  Simplified: the operand has no members beside [$ref];
    elements of an operand that is an array are plain values. *)
From Verif Require Import PyBase PyVal Errors Numbers Validators Keywords.
From Coq Require Import QArith.
Local Open Scope string_scope.
Local Notation length := List.length (only parsing).

(** the operand; [uri] is the text of [JsonReference.uri] *)
Inductive operand := Here (v : pv) | There (uri : pystr) (target : operand).

(** what a reference leads to in the end *)
Fixpoint final (n : operand) : pv := match n with Here v => v | There _ t => final t end.
Definition is_reference (n : operand) : bool := match n with Here _ => false | There _ _ => true end.

(** the nodes a plain value is wrapped into, [json_complex.py:84-117] *)
Definition shape (v : pv) : nval operand :=
  match v with
  | VNone => NNull
  | VBool b => NBool b
  | VInt z => NNum (Dec z 0)
  | VFloat f => NNum (frepr f)
  | VDec d => NNum d
  | VStr s => NStr s
  | VList l => NArr (map Here l)
  | VDict d => NObj (map (fun '(k, x) => (k, Here x)) d)
  end.
(** [JsonReference.type], lines 23-25, is the type of the target *)
Definition operand_view (n : operand) : res (nview operand) := Ok (NView (shape (final n)) (is_reference n)).

(** [n.value]: the raw value of a plain node ([json_type.py:42-44]), for a reference
    the target node unless that is an object ([ref_keyword.py:35-58]) *)
Definition value_of (n : operand) : nval operand + operand :=
  match n with
  | Here v => inl (shape v)
  | There _ t => match shape (final t) with NObj d => inl (NObj d) | _ => inr t end
  end.
(** [int(n)]: a reference has no [__int__] *)
Definition int_of (n : operand) : res Z :=
  match n with
  | Here v => match shape v with NNum d => Ok (dec_int d) | _ => Raise EType end
  | There _ _ => Raise EType
  end.
(** [str(n)]: a reference has no [__str__], so this is its [__repr__], lines 80-81.
    Of the plain nodes only texts are asked. *)
Definition str_of (n : operand) : pystr :=
  match n with
  | Here v => match shape v with NStr s => s | _ => [] end
  | There uri _ => (u "JsonReference(" ++ uri ++ u ")")%list
  end.

(** ** [for x in n].  A reference has no [__iter__]; Python calls [n[0]], [n[1]] and so
    on until an IndexError. *)
Fixpoint any_equals (z : Z) (l : list operand) : res bool :=
  match l with
  | [] => Ok false
  | x :: l' => b <- eq_node operand_view (VInt z) x ;; if b then Ok true else any_equals z l'
  end.
(** [z in n], lines 60-61, [json_complex.py:48-49, 77-78], [UserString.__contains__] *)
Fixpoint contains_int (n : operand) (z : Z) : res bool :=
  match n with
  | Here v =>
      match shape v with
      | NArr l => any_equals z l
      | NObj _ => Ok false
      | _ => Raise EType
      end
  | There _ t => contains_int t z
  end.
(** [n[i]], lines 66-69, [json_complex.py:22-25, 65-69] *)
Fixpoint item (n : operand) (i : nat) : res operand :=
  match n with
  | Here v =>
      match shape v with
      | NArr l => match nth_error l i with Some x => Ok x | None => Raise EIndex end
      | NObj _ => Raise (EKey [])
      | NStr s => match nth_error s i with Some c => Ok (Here (VStr [c])) | None => Raise EIndex end
      | _ => Raise EType
      end
  | There _ t =>
      b <- contains_int t (Z.of_nat i) ;;
      if b then item t i else Raise (EKey [])
  end.
Fixpoint iterate (fuel : nat) (n : operand) (i : nat) : res (list operand) :=
  match fuel with
  | O => OutOfFuel
  | S f =>
      match item n i with
      | Ok x => l <- iterate f n (S i) ;; Ok (x :: l)
      | Raise EIndex => Ok []
      | Raise e => Raise e
      | OutOfFuel => OutOfFuel
      end
  end.
Definition width (n : operand) : nat := match shape (final n) with NArr l => length l | _ => O end.
Definition elements (n : operand) : res (list operand) :=
  match n with
  | Here v =>
      match shape v with
      | NArr l => Ok l
      | NStr s => Ok (map (fun c => Here (VStr [c])) s)
      | NObj d => Ok (map (fun kx => Here (VStr (fst kx))) d)
      | _ => Raise EType
      end
  | There _ _ => iterate (S (width n)) n 0
  end.

(** ** Comparing a plain value with a node: Python asks the node, with the sides
    swapped ([json_number.py:66-152]); a reference asks its target
    ([json_type.py:63-85]) *)
Fixpoint node_compare (f : dec -> Numbers.operand -> res bool) (n : operand) (v : pv) : res bool :=
  match n with
  | Here x => match shape x with NNum d => f d (Plain v) | _ => Raise EType end
  | There _ t => node_compare f t v
  end.
Definition number_of (n : operand) : dec := match shape (final n) with NNum d => d | _ => Dec 0 0 end.

(** ** Validators.  The usual ones, and those that were given a node where they expect
    a plain value. *)
Inductive rule :=
| Usual (o : vobj operand operand)
| MinNode (n : operand) (exclusive : bool)
| MaxNode (n : operand) (exclusive : bool)
| MultNode (n : operand)
| ConstNode (n : operand).

Section Rules.
  Variable E : env.
  Variable strx : operand -> pystr.                          (* str() of an element that is no text *)
  Variable rec : operand -> pv -> ctx -> res unit.           (* validating with a nested schema *)
  Variable lf : nat.

  Definition run_rule (r : rule) (v : pv) (c : ctx) : res unit :=
    match r with
    | Usual o => run_vobj operand_view E rec lf o v c
    | MinNode n ex =>                                        (* number_validators.py:33-38 *)
        b <- node_compare (if ex then num_ge else num_gt) n v ;;
        if b then raise_verr (KMinimum (number_of n)) (ctx_path c) else Ok tt
    | MaxNode n ex =>                                        (* number_validators.py:49-54 *)
        b <- node_compare (if ex then num_le else num_lt) n v ;;
        if b then raise_verr (KMaximum (number_of n)) (ctx_path c) else Ok tt
    | MultNode _ =>                                          (* number_validators.py:17-22; no node has [__rmod__] *)
        _ <- dec_of_value E v ;; Raise EType
    | ConstNode n =>                                         (* core_validators.py:182-187 *)
        if is_bool v then raise_verr KConst (ctx_path c)
        else b <- eq_node operand_view v n ;; if b then Ok tt else raise_verr KConst (ctx_path c)
    end.

  (** ** [keyword.apply] *)
  Definition one (k : akw) (r : rule) : res (list (pystr * rule)) := Ok [(kw_key k, r)].
  (** the other keywords, as in Keywords.v: they only use what a reference has *)
  Definition as_usual (k : akw) (n : operand) : res (list (pystr * rule)) :=
    d <- apply operand_view strx E k [(kw_key k, n)] [] ;; Ok (map (fun '(x, o) => (x, Usual o)) d).
  Definition with_value (n : operand) (plain : dec -> rule) (node : operand -> rule) : res rule :=
    match shape (final n), value_of n with
    | NNum _, inl (NNum d) => Ok (plain d)
    | NNum _, inr m => Ok (node m)
    | _, _ => Raise ESchemaParse
    end.
  Definition with_int (n : operand) (f : Z -> rule) : res rule :=
    match shape (final n) with
    | NNum _ => z <- int_of n ;; Ok (f z)
    | _ => Raise ESchemaParse
    end.
  Definition with_list (n : operand) (f : list operand -> rule) : res rule :=
    match shape (final n) with
    | NArr _ => l <- elements n ;; Ok (f l)
    | _ => Raise ESchemaParse
    end.
  Definition apply_any (k : akw) (n : operand) : res (list (pystr * rule)) :=
    match k with
    | KwMinimum =>                                           (* minimum_keyword.py:11-20 *)
        r <- with_value n (fun d => Usual (VMinimum d false)) (fun m => MinNode m false) ;; one k r
    | KwMaximum =>                                           (* maximum_keyword.py:11-20 *)
        r <- with_value n (fun d => Usual (VMaximum d false)) (fun m => MaxNode m false) ;; one k r
    | KwExclusiveMinimum =>                                  (* exclusive_minimum_keyword.py:11-21 *)
        r <- with_value n (fun d => Usual (VMinimum d true)) (fun m => MinNode m true) ;; one k r
    | KwExclusiveMaximum =>                                  (* exclusive_maximum_keyword.py:11-21 *)
        r <- with_value n (fun d => Usual (VMaximum d true)) (fun m => MaxNode m true) ;; one k r
    | KwMultipleOf =>                                        (* multiple_of_keyword.py:11-15 *)
        r <- with_value n (fun d => Usual (VMultipleOf d)) MultNode ;; one k r
    | KwMinLength => r <- with_int n (fun z => Usual (VMinLength z)) ;; one k r       (* min_length_keyword.py:11-15 *)
    | KwMaxLength => r <- with_int n (fun z => Usual (VMaxLength z)) ;; one k r       (* max_length_keyword.py:11-15 *)
    | KwMinItems => r <- with_int n (fun z => Usual (VMinItems z)) ;; one k r         (* min_items_keyword.py:11-15 *)
    | KwMaxItems => r <- with_int n (fun z => Usual (VMaxItems z)) ;; one k r         (* max_items_keyword.py:11-15 *)
    | KwMinProperties => r <- with_int n (fun z => Usual (VMinProps z)) ;; one k r    (* min_properties_keyword.py:11-15 *)
    | KwMaxProperties => r <- with_int n (fun z => Usual (VMaxProps z)) ;; one k r    (* max_properties_keyword.py:11-15 *)
    | KwAllOf => r <- with_list n (fun l => Usual (VAllOf l)) ;; one k r              (* all_of_keyword.py:11-18 *)
    | KwAnyOf => r <- with_list n (fun l => Usual (VAnyOf l)) ;; one k r              (* any_of_keyword.py:11-18 *)
    | KwOneOf => r <- with_list n (fun l => Usual (VOneOf l)) ;; one k r              (* one_of_keyword.py:11-19 *)
    | KwPrefixItems => r <- with_list n (fun l => Usual (VArray None (Some l))) ;; one k r   (* prefix_items_keyword.py:11-21 *)
    | KwRequired =>                                          (* required_properties_keyword.py:11-15 *)
        r <- with_list n (fun l => Usual (VRequired (map (item_str operand_view strx) l))) ;; one k r
    | KwItems =>                                             (* items_keyword.py:11-29 *)
        match shape (final n) with
        | NArr _ => l <- elements n ;; one k (Usual (VArray None (Some l)))
        | _ => as_usual k n
        end
    | KwPattern =>                                           (* pattern_keyword.py:11-17 *)
        match shape (final n) with
        | NStr _ => if re_ok E (str_of n) then one k (Usual (VPattern (str_of n))) else Raise ERe
        | _ => Raise ESchemaParse
        end
    | KwFormat =>                                            (* format_keyword.py:12-24 *)
        match shape (final n) with
        | NStr _ =>
            match fmt E (str_of n) with
            | None => Raise ESchemaParse
            | Some _ => one k (Usual (VFormat (str_of n)))
            end
        | _ => Raise ESchemaParse
        end
    | KwType =>                                              (* type_keyword.py:12-26 *)
        ts <- (match shape (final n) with
               | NStr _ => Ok [str_of n]
               | NArr _ => l <- elements n ;; Ok (map (item_str operand_view strx) l)
               | _ => Raise ESchemaParse
               end) ;;
        if forallb (fun t => str_mem t valid_types) ts then one k (Usual (VType ts)) else Raise ESchemaParse
    | KwEnum =>                                              (* enum_keyword.py:10-14, core_validators.py:138-149 *)
        match shape (final n) with
        | NArr _ =>
            l <- (match value_of n with
                  | inl (NArr l) => Ok l
                  | inl _ => Raise EType
                  | inr m => elements m
                  end) ;;
            xs <- map_res (enum_item operand_view) l ;;
            one k (Usual (VEnum xs))
        | _ => Raise ESchemaParse
        end
    | KwConst =>                                             (* const_keyword.py:10-14 *)
        match shape (final n), value_of n with
        | NArr _, _ | NObj _, _ => Raise ESchemaParse
        | _, inl x => one k (Usual (VConst x))
        | _, inr m => one k (ConstNode m)
        end
    | _ => as_usual k n
    end.

  (** [validator.validate(v)] for the schema [{k: n}] *)
  Definition outcome (k : akw) (n : operand) (v : pv) (c : ctx) : res unit :=
    rs <- apply_any k n ;; for_each (fun '(_, r) => run_rule r v c) rs.

  (** [int(node["minContains"].value)], [contains_keyword.py:17-25] *)
  Definition contains_bound (n : operand) : res Z :=
    match shape (final n), value_of n with
    | NNum _, inl (NNum d) => Ok (dec_int d)
    | NNum _, inr m => int_of m
    | _, _ => Raise ESchemaParse
    end.
End Rules.
