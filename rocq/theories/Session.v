(** The cache in front of [JsonSchema.query]: [functools.lru_cache()] on the method
    (json_core.py:170), one cache of 128 entries for all documents, keyed by the
    document and the argument. *)
From Verif Require Import PyBase PyVal Uri Store Pointer Heap Doc.
Local Open Scope nat_scope.
Local Notation length := List.length (only parsing).

(** A key: the document with the text asked for, or with the pointer object of a
    [JsonReference] ([fragment], keywords/ref_keyword.py:31-33).  Pointer objects are
    compared by identity ([JsonPointer] has no [__eq__]) and texts by value. *)
Definition qkey : Type := (nat * pystr) + nat.
Definition qkey_eqb (a b : qkey) : bool :=
  match a, b with
  | inl (s, t), inl (s', t') => Nat.eqb s s' && str_eqb t t'
  | inr i, inr j => Nat.eqb i j
  | _, _ => false
  end.

Section Session.
  Variable auth : pystr -> option authority.
  Variable dig : N -> option Z.
  Variable strx : heap -> addr -> pystr.
  Variable fetch : uri -> res pv.
  (** bounds the depth of calls *)
  Variable n : nat.

  (** What happens to the documents of a program: [schema.query(text)]; a change
      of anything (an assignment or deletion, loading, validating); a reference
      followed for the first time, which takes a place in the cache.
      Simplification: references followed while a query runs are taken to be
      followed just before it. *)
  Inductive action := Ask (s : nat) (t : pystr) | Change (f : world -> world) | Follow (i : nat).

  (** what a query answers without the cache *)
  Definition ask (w : world) (k : qkey) : world * res addr :=
    match k with
    | inl (s, t) => query_text auth dig strx fetch n s t w
    | inr _ => (w, Ok 0)
    end.
  (** the cached call: on a hit nothing is run *)
  Definition cached (w : world) (c : @lru qkey addr) (k : qkey) : world * @lru qkey addr * res addr :=
    let '(c', r) := lru_call qkey_eqb (fun k => snd (ask w k)) k c in
    (match lru_find qkey_eqb k c with Some _ => w | None => fst (ask w k) end, c', r).

  (** one line of the log: the state before, the question, the answer *)
  Record line := Line { l_world : world; l_doc : nat; l_text : pystr; l_answer : res addr }.
  Fixpoint session (acts : list action) (w : world) (c : @lru qkey addr) : list line * world * @lru qkey addr :=
    match acts with
    | [] => ([], w, c)
    | Ask s t :: acts' =>
        let '(w1, c1, r) := cached w c (inl (s, t)) in
        let '(log, w', c') := session acts' w1 c1 in (Line w s t r :: log, w', c')
    | Change f :: acts' => session acts' (f w) c
    | Follow i :: acts' => let '(w1, c1, _) := cached w c (inr i) in session acts' w1 c1
    end.
End Session.
