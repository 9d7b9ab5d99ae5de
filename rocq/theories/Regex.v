(** The part of Python's [re] module the package uses: a backtracking matcher
    that lists all ways to match in the order [re] tries them.  [re.match] takes
    the first, [re.fullmatch] the first that consumes everything. *)
From Verif Require Import PyBase.
Local Notation length := List.length (only parsing).

Inductive regex : Type :=
| Eps
| Cls (p : N -> bool)                 (* one character of a class *)
| Seq (a b : regex)
| Alt (a b : regex)                   (* [a|b], [a] first *)
| Star (a : regex)                    (* [a*], greedy *)
| Grp (i : nat) (a : regex)           (* capturing group *)
| Eol                                 (* [$] without [re.M] *)
| Look (a : regex)                    (* [(?=a)] *)
| NotLook (a : regex).                (* [(?!a)] *)

(** Matcher state: the text still to be read, and the captures so far (latest
    first).  All the patterns of the package start with [^] and are used with
    [match]/[fullmatch], so the leading [^] is left out. *)
Definition caps := list (nat * pystr).
Definition mstate : Type := pystr * caps.
Definition newline : N := 10%N.

Section Star.
  Variable body : mstate -> list mstate.
  (** an iteration that reads nothing ends the loop; [fuel] is the number of
      characters left, so it never runs out *)
  Fixpoint star_run (fuel : nat) (x : mstate) : list mstate :=
    match fuel with
    | O => [x]
    | S f =>
        flat_map (fun y => if Nat.ltb (length (fst y)) (length (fst x)) then star_run f y else []) (body x) ++ [x]
    end.
End Star.

Fixpoint run (r : regex) (x : mstate) : list mstate :=
  match r with
  | Eps => [x]
  | Cls p =>
      match fst x with
      | c :: rest => if p c then [(rest, snd x)] else []
      | [] => []
      end
  | Seq a b => flat_map (run b) (run a x)
  | Alt a b => run a x ++ run b x
  | Star a => star_run (run a) (length (fst x)) x
  | Grp i a =>
      map (fun y => (fst y, (i, firstn (length (fst x) - length (fst y)) (fst x)) :: snd y)) (run a x)
  | Eol =>
      match fst x with
      | [] => [x]
      | [c] => if N.eqb c newline then [x] else []
      | _ => []
      end
  | Look a =>
      match run a x with
      | [] => []
      | y :: _ => [(fst x, snd y)]
      end
  | NotLook a =>
      match run a x with
      | [] => [x]
      | _ :: _ => []
      end
  end.

(** [m.group(i)]; [None] when the group took no part *)
Fixpoint group (i : nat) (cs : caps) : option pystr :=
  match cs with
  | [] => None
  | (j, w) :: cs' => if Nat.eqb i j then Some w else group i cs'
  end.

(** [pattern.match(s)] and [pattern.fullmatch(s)]: the captures *)
Definition re_match (r : regex) (s : pystr) : option caps :=
  match run r (s, []) with
  | [] => None
  | y :: _ => Some (snd y)
  end.
Definition re_fullmatch (r : regex) (s : pystr) : option caps :=
  match find (fun y : mstate => match fst y with [] => true | _ => false end) (run r (s, [])) with
  | None => None
  | Some y => Some (snd y)
  end.

(** ** Derived forms *)
Definition opt (a : regex) : regex := Alt a Eps.                (* [a?] *)
Definition plus (a : regex) : regex := Seq a (Star a).          (* [a+] *)
Definition seqs (l : list regex) : regex := fold_right Seq Eps l.
Fixpoint times (n : nat) (a : regex) : regex :=                 (* [a{n}] *)
  match n with O => Eps | S n' => Seq a (times n' a) end.
Fixpoint upto (n : nat) (a : regex) : regex :=                  (* [a{0,n}] *)
  match n with O => Eps | S n' => opt (Seq a (upto n' a)) end.

(** ** Character classes *)
Definition one (c : N) (x : N) : bool := N.eqb x c.
Definition between (a b : N) (x : N) : bool := N.leb a x && N.leb x b.
Definition among (l : pystr) (x : N) : bool := existsb (N.eqb x) l.
Definition is_ascii_digit : N -> bool := between 48 57.         (* [0-9] *)
Definition is_lower : N -> bool := between 97 122.              (* [a-z] *)
Definition is_upper : N -> bool := between 65 90.               (* [A-Z] *)
(** [[a-z]] under [re.I] (unicode): besides A-Z also U+0130, U+0131 (dotted
    and dotless i), U+017F (long s) and U+212A (kelvin) *)
Definition is_letter_i (x : N) : bool :=
  is_lower x || is_upper x || among [304; 305; 383; 8490]%N x.
(** a literal letter, given in lower case, under [re.I]; only [i], [k] and [s]
    have further variants *)
Definition lit_i (c : N) (x : N) : bool :=
  N.eqb x c || N.eqb x (c - 32) ||
  (N.eqb c 105 && among [304; 305]%N x) || (N.eqb c 107 && N.eqb x 8490) || (N.eqb c 115 && N.eqb x 383).
(** [\s] for [str] patterns *)
Definition is_space (x : N) : bool :=
  between 9 13 x || between 28 32 x || among [133; 160; 5760; 8232; 8233; 8239; 8287; 12288]%N x || between 8192 8202 x.
Definition chr (s : string) : N := match u s with c :: _ => c | [] => 0%N end.
Arguments chr s%string.
