(** [JsonPointer] objects ([jsoned/json_pointer.py]) in memory: what a program can
    do with pointers and with the lists it makes them of.  [Pointer.v] has the
    parsing and printing, for the list of tokens alone; here a pointer holds a
    reference to a list, which may be the caller's. *)
From Verif Require Import PyBase Regex Pointer Arrays.
Local Open Scope nat_scope.
Local Notation length := List.length (only parsing).

(** The lists in memory, the lists the caller holds, and for each pointer the list
    in its [_nodes] *)
Record pmem := PMem { m_lists : list (list pystr); m_mine : list nat; m_pointers : list nat }.

(** what is asked of one pointer *)
Inductive ask :=
| Get (i : Z)                      (* p[i] *)
| GetOther                         (* p[x], x neither an int nor a slice *)
| Len | Iterate | Reversed         (* len(p), list(p), list(reversed(p)) *)
| Has (w : pystr)                  (* w in p *)
| IndexOf (w : pystr)              (* p.index(w) *)
| Count (w : pystr)                (* p.count(w) *)
| Str.                             (* str(p) *)
Inductive pcall :=
| NewList (l : list pystr)         (* xs = [...] *)
| ChangeList (h : nat) (l : list pystr)  (* xs[:] = [...], xs.append(w), ... *)
| Parse (s : pystr)                (* JsonPointer(s) *)
| FromList (h : nat)               (* JsonPointer.from_list(xs) *)
| Slice (p : nat) (i j k : option Z)  (* p[i:j:k] *)
| Ask (p : nat) (q : ask)
| Equal (p q : nat).               (* p == q *)
Inductive answer :=
| AList (h : nat) | APointer (p : nat) | AWord (w : pystr) | AWords (l : list pystr) | AInt (n : nat) | ABool (b : bool) | ADone | AFail (e : exn).

Definition settle {A} (f : A -> answer) (r : res A) : answer := match r with Ok a => f a | Raise e => AFail e | OutOfFuel => AFail EUnmodelled end.
(** [Sequence.index] of [collections.abc], [while True: try: v = self[i] ...] *)
Fixpoint index_loop (fuel : nat) (l : list pystr) (w : pystr) (i : nat) : answer :=
  match fuel with
  | O => AFail EUnmodelled
  | S fuel' => match list_get l (Z.of_nat i) with
               | Ok v => if str_eqb v w then AInt i else index_loop fuel' l w (S i)
               | _ => AFail EValue
               end
  end.
(** [Sequence.__reversed__]: [for i in reversed(range(len(self))): yield self[i]] *)
Definition reversed (l : list pystr) : answer :=
  settle AWords (fold_right (fun i acc => xs <- acc ;; x <- list_get l (Z.of_nat i) ;; Ok (xs ++ [x])) (Ok []) (seq 0 (length l))).
(** the methods, lines 16-45, for the list in [_nodes]; [count] and [index] are
    those of [Sequence] *)
Definition pointer_ask (l : list pystr) (q : ask) : answer :=
  match q with
  | Get i => settle AWord (list_get l i)
  | GetOther => AFail EType
  | Len => AInt (length l)
  | Iterate => AWords l
  | Reversed => reversed l
  | Has w => ABool (existsb (fun v => str_eqb v w) l)
  | IndexOf w => index_loop (S (length l)) l w 0
  | Count w => AInt (length (filter (fun v => str_eqb v w) l))
  | Str => AWord (pointer_str l)
  end.
(** a new list, and a pointer that holds it *)
Definition with_pointer (m : pmem) (l : list pystr) : answer * pmem :=
  (APointer (length (m_pointers m)), PMem (m_lists m ++ [l]) (m_mine m) (m_pointers m ++ [length (m_lists m)])).
Fixpoint list_update {A} (n : nat) (x : A) (l : list A) : list A :=
  match l, n with
  | [], _ => []
  | _ :: l', O => x :: l'
  | y :: l', S n' => y :: list_update n' x l'
  end.
(** handles that do not exist give [EUnmodelled] *)
Definition pointer_call (m : pmem) (c : pcall) : answer * pmem :=
  match c with
  | NewList l => (AList (length (m_mine m)), PMem (m_lists m ++ [l]) (m_mine m ++ [length (m_lists m)]) (m_pointers m))
  | ChangeList h l =>
      match nth_error (m_mine m) h with
      | Some i => (ADone, PMem (list_update i l (m_lists m)) (m_mine m) (m_pointers m))
      | None => (AFail EUnmodelled, m)
      end
  (* lines 10-14 *)
  | Parse s => match pointer_parse s with Ok l => with_pointer m l | Raise e => (AFail e, m) | OutOfFuel => (AFail EUnmodelled, m) end
  (* lines 47-52: [_nodes] is the caller's list *)
  | FromList h =>
      match nth_error (m_mine m) h with
      | Some i => (APointer (length (m_pointers m)), PMem (m_lists m) (m_mine m) (m_pointers m ++ [i]))
      | None => (AFail EUnmodelled, m)
      end
  (* lines 30-33 *)
  | Slice p i j k =>
      match nth_error (m_pointers m) p with
      | Some a => match nth_error (m_lists m) a with
                  | Some l => match list_slice l i j k with Ok x => with_pointer m x | Raise e => (AFail e, m) | OutOfFuel => (AFail EUnmodelled, m) end
                  | None => (AFail EUnmodelled, m)
                  end
      | None => (AFail EUnmodelled, m)
      end
  | Ask p q =>
      (match nth_error (m_pointers m) p with
       | Some a => match nth_error (m_lists m) a with Some l => pointer_ask l q | None => AFail EUnmodelled end
       | None => AFail EUnmodelled
       end, m)
  (* no [__eq__]: the same object *)
  | Equal p q =>
      (match nth_error (m_pointers m) p, nth_error (m_pointers m) q with Some _, Some _ => ABool (Nat.eqb p q) | _, _ => AFail EUnmodelled end, m)
  end.
Fixpoint pointer_calls (m : pmem) (cs : list pcall) : list (pcall * answer) * pmem :=
  match cs with
  | [] => ([], m)
  | c :: cs' => let '(x, m1) := pointer_call m c in let '(log, m2) := pointer_calls m1 cs' in ((c, x) :: log, m2)
  end.
Definition nothing : pmem := PMem [] [] [].
