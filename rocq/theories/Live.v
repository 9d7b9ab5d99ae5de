(** Validation that loads the documents it comes to: [JsonSchema.validate]
    ([jsoned/json_core.py:114-127]) with references to documents that are not
    loaded yet ([keywords/ref_keyword.py:23-58], [json_store.py:80-90]). *)
From Verif Require Import PyBase PyVal Regex Numbers Uri Pointer Store Validators Keywords Heap Doc Validate.
Local Open Scope nat_scope.
Local Notation length := List.length (only parsing).

Section Live.
  Variable auth : pystr -> option authority.
  Variable dig : N -> option Z.
  Variable strx : heap -> addr -> pystr.
  Variable fetch : uri -> res pv.
  Notation exec := (exec auth dig strx fetch).

  (** the documents there are, and which of them are loaded *)
  Definition flags (w : world) : list bool := map s_ready (w_schemas w).
  (** What [node_view] (Validate.v) tells of a node, if reading it loads nothing;
      otherwise the signal that it is to be read. *)
  Definition peek (n : nat) (w : world) (a : addr) : res (nview addr) :=
    let '(w', r) := node_view (exec n) n a w in
    if list_eq_dec Bool.bool_dec (flags w) (flags w') then r else Raise (ENeeds a).
  (** Validation of [v] with the schema at the node [root].  Where it comes to a node
      that loads a document, the document is loaded.  Simplification: the code goes
      on from there, here validation starts again in the new state; nothing that was
      read before reads differently then (C80), so it takes the same way.  [k] bounds
      the number of starts.  What a reading changes that loads no document (a load
      that failed half way) is dropped. *)
  Fixpoint live_validate (E : env) (voc : list akw) (n fuel k : nat) (root : addr) (v : pv) : M unit := fun w =>
    match k with
    | O => (w, OutOfFuel)
    | S k' =>
        match schema_validate (peek n w) (strx (w_heap w)) E voc fuel root v with
        | Raise (ENeeds a) => live_validate E voc n fuel k' root v (fst (node_view (exec n) n a w))
        | r => (w, r)
        end
    end.
  (** [schema.validate(v)] *)
  Definition live_document (E : env) (voc : list akw) (n fuel k s : nat) (v : pv) : M unit :=
    _ <~ load_n auth dig strx fetch n s ;;
    x <~ schema_at s ;;
    live_validate E voc n fuel k (s_value x) v.
End Live.
