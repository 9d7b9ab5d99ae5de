(** [JsonArray] as a mutable sequence ([types/json_complex.py:55-81]): reading by
    index and slice, length, iteration, [in], assignment and deletion.  Assignment
    stores what it is given, so an array may hold plain values among its nodes.
    Simplification: one array is followed by itself; its nodes hold no such plain
    values inside. *)
From Verif Require Import PyBase PyVal Validators Numbers Uri Heap Compare.
Local Open Scope Z_scope.
Local Notation length := List.length (only parsing).

(** An element of [_value]: a node, or whatever was assigned *)
Inductive slot := SNode (a : addr) | SRaw (v : pv).
(** [JsonArray(list)] holds nodes only, lines 58-60 *)
Definition fresh (els : list addr) : list slot := map SNode els.

(** ** Python's [list] *)
(** the position an index stands for, negative ones from the end *)
Definition position (n : Z) (i : Z) : option nat :=
  let j := if i <? 0 then i + n else i in
  if (0 <=? j) && (j <? n) then Some (Z.to_nat j) else None.
(** [PySlice_AdjustIndices] in CPython's [Objects/sliceobject.c]: the first
    position, the end, and the number of positions *)
Definition adjusted (n step : Z) (x : option Z) (missing : Z) : Z :=
  match x with
  | None => missing
  | Some z =>
      if z <? 0
      then let z' := z + n in if z' <? 0 then if step <? 0 then -1 else 0 else z'
      else if n <=? z then if step <? 0 then n - 1 else n else z
  end.
Definition slice_count (start stop step : Z) : Z :=
  if step <? 0
  then if stop <? start then (start - stop - 1) / (- step) + 1 else 0
  else if start <? stop then (stop - start - 1) / step + 1 else 0.
(** the copying loop of [list_subscript], [Objects/listobject.c] *)
Fixpoint slice_loop {A} (l : list A) (cur step : Z) (count : nat) : list A :=
  match count with
  | O => []
  | S c => match nth_error l (Z.to_nat cur) with
           | Some x => x :: slice_loop l (cur + step) step c
           | None => []
           end
  end.
Definition list_slice {A} (l : list A) (start stop step : option Z) : res (list A) :=
  let k := match step with Some k => k | None => 1 end in
  if k =? 0 then Raise EValue else
  let n := Z.of_nat (length l) in
  let i := adjusted n k start (if k <? 0 then n - 1 else 0) in
  let j := adjusted n k stop (if k <? 0 then -1 else n) in
  Ok (slice_loop l i k (Z.to_nat (slice_count i j k))).
Definition list_get {A} (l : list A) (i : Z) : res A :=
  match position (Z.of_nat (length l)) i with
  | Some p => match nth_error l p with Some x => Ok x | None => Raise EIndex end
  | None => Raise EIndex
  end.
Definition list_put {A} (l : list A) (i : Z) (x : A) : res (list A) :=
  match position (Z.of_nat (length l)) i with
  | Some p => Ok (firstn p l ++ x :: skipn (S p) l)
  | None => Raise EIndex
  end.
Definition list_del {A} (l : list A) (i : Z) : res (list A) :=
  match position (Z.of_nat (length l)) i with
  | Some p => Ok (firstn p l ++ skipn (S p) l)
  | None => Raise EIndex
  end.
(** [list_ass_subscript] with no value, [Objects/listobject.c]: with step 1 the
    span is cut out ([list_ass_slice]); otherwise, going upwards, one element is
    dropped and the [step - 1] after it are moved down *)
Fixpoint drop_loop {A} (l : list A) (step : nat) (count : nat) : list A :=
  match count with
  | O => l
  | S c => match l with
           | [] => []
           | _ :: l' => firstn (step - 1) l' ++ drop_loop (skipn (step - 1) l') step c
           end
  end.
Definition list_del_slice {A} (l : list A) (start stop step : option Z) : res (list A) :=
  let k := match step with Some k => k | None => 1 end in
  if k =? 0 then Raise EValue else
  let n := Z.of_nat (length l) in
  let i := adjusted n k start (if k <? 0 then n - 1 else 0) in
  let j := adjusted n k stop (if k <? 0 then -1 else n) in
  if k =? 1 then Ok (firstn (Z.to_nat i) l ++ skipn (Z.to_nat (Z.max i j)) l)
  else
    let c := slice_count i j k in
    if c <=? 0 then Ok l
    else
      let first := Z.to_nat (if k <? 0 then i + k * (c - 1) else i) in
      Ok (firstn first l ++ drop_loop (skipn first l) (Z.to_nat (Z.abs k)) (Z.to_nat c)).
(** [list_ass_subscript] with a value: with step 1 the span is replaced, otherwise
    there must be as many values as positions, which are filled in turn.  [None]
    stands for a value that cannot be iterated over. *)
Fixpoint fill_loop {A} (l : list A) (cur step : Z) (vals : list A) : list A :=
  match vals with
  | [] => l
  | x :: vals' => fill_loop (firstn (Z.to_nat cur) l ++ x :: skipn (S (Z.to_nat cur)) l) (cur + step) step vals'
  end.
Definition list_put_slice {A} (l : list A) (start stop step : option Z) (given : option (list A)) : res (list A) :=
  let k := match step with Some k => k | None => 1 end in
  if k =? 0 then Raise EValue else
  let n := Z.of_nat (length l) in
  let i := adjusted n k start (if k <? 0 then n - 1 else 0) in
  let j := adjusted n k stop (if k <? 0 then -1 else n) in
  match given with
  | None => Raise EType
  | Some vals =>
      if k =? 1 then Ok (firstn (Z.to_nat i) l ++ vals ++ skipn (Z.to_nat (Z.max i j)) l)
      else if Z.of_nat (length vals) =? slice_count i j k then Ok (fill_loop l i k vals)
      else Raise EValue
  end.

Section Array.
  Variable h : heap.
  (** ** [item in array], lines 80-81: each element [==] the item, in order *)
  Definition slot_equal (fuel : nat) (x y : slot) : res bool :=
    match x, y with
    | SNode a, SNode b => identical_or_equal (nodes_equal h fuel) a b
    | SNode a, SRaw w => eq_node (hview h) w a
    | SRaw v, SNode b => eq_node (hview h) v b                  (* the reflected [__eq__] *)
    | SRaw v, SRaw w => Ok (py_eq v w)
    end.
  Fixpoint arr_contains (fuel : nat) (s : list slot) (x : slot) : res bool :=
    match s with
    | [] => Ok false
    | y :: s' => b <- slot_equal fuel y x ;; if b then Ok true else arr_contains fuel s' x
    end.

  (** ** [array[i:j:k]], lines 65-66: a new [JsonArray] of the elements.  Nodes
      are taken as they are, plain values are wrapped ([_map_value], lines 94-98). *)
  Fixpoint map_slots (owner : addr) (b : addr) (i : nat) (s : list slot) : list addr * heap :=
    match s with
    | [] => ([], [])
    | SNode a :: s' => let '(els, rest) := map_slots owner b (S i) s' in (a :: els, rest)
    | SRaw v :: s' =>
        let ns := wrap b (Some owner) (nat_str i) v in
        let '(els, rest) := map_slots owner (b + length ns)%nat (S i) s' in (b :: els, ns ++ rest)
    end.
  Definition arr_slice (s : list slot) (start stop step : option Z) : res (addr * heap) :=
    m <- list_slice s start stop step ;;
    let r := length h in
    let '(els, rest) := map_slots r (S r) 0 m in
    Ok (r, h ++ Node (PArr els) None [] :: rest).
End Array.

(** ** A history of calls on one array *)
Inductive call :=
| Get (i : Z)                                  (* array[i] *)
| Take (start stop step : option Z)            (* array[i:j:k], seen as the list of its elements *)
| Len | Iterate
| Put (i : Z) (v : pv)                         (* array[i] = plain value *)
| PutNode (i : Z) (a : addr)                   (* array[i] = node *)
| Del (i : Z)                                  (* del array[i] *)
| DelSlice (start stop step : option Z)        (* del array[i:j:k] *)
| PutSlice (start stop step : option Z) (given : option (list slot)).
    (* array[i:j:k] = value; what iterating over the value gives, if it can be iterated over *)
(** what a call returns *)
Inductive answer (E : Type) := AOne (x : E) | AMany (l : list E) | ASize (n : nat) | ADone | AFail (e : exn).
Arguments AOne {E} x. Arguments AMany {E} l. Arguments ASize {E} n. Arguments ADone {E}. Arguments AFail {E} e.
(** the answer, and the array afterwards *)
Definition arr_call (s : list slot) (c : call) : answer slot * list slot :=
  let changed (r : res (list slot)) := match r with Ok s' => (ADone, s') | Raise e => (AFail e, s) | OutOfFuel => (AFail EUnmodelled, s) end in
  match c with
  | Get i => match list_get s i with Ok x => (AOne x, s) | Raise e => (AFail e, s) | OutOfFuel => (AFail EUnmodelled, s) end
  | Take i j k => match list_slice s i j k with Ok l => (AMany l, s) | Raise e => (AFail e, s) | OutOfFuel => (AFail EUnmodelled, s) end
  | Len => (ASize (length s), s)
  | Iterate => (AMany s, s)
  | Put i v => changed (list_put s i (SRaw v))
  | PutNode i a => changed (list_put s i (SNode a))
  | Del i => changed (list_del s i)
  | DelSlice i j k => changed (list_del_slice s i j k)              (* lines 74-75 *)
  | PutSlice i j k given => changed (list_put_slice s i j k given)  (* lines 71-72 *)
  end.
Fixpoint arr_calls (s : list slot) (cs : list call) : list (answer slot) * list slot :=
  match cs with
  | [] => ([], s)
  | c :: cs' => let '(x, s1) := arr_call s c in let '(xs, s2) := arr_calls s1 cs' in (x :: xs, s2)
  end.
