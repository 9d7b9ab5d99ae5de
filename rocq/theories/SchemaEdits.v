(** A schema whose nodes are edited between calls of [validate]: the validators of
    [Memory.v], built lazily and kept ([json_core.py:64-94, 114-127]), while the
    nodes they were built from are set, replaced and deleted
    ([types/json_complex.py:36-46, 71-75]). *)
From Verif Require Import PyBase PyVal Errors Validators Keywords Memory.
Local Open Scope nat_scope.

Section SchemaEdits.
  Context {node : Type} (E : env).
  Variable voc : list akw.
  (** the nodes as they are: what they hold, and their [str] *)
  Record doc := Doc { d_view : node -> res (nview node); d_str : node -> pystr }.
  Inductive step :=
  | Validate (fuel : nat) (v : pv)             (* schema.validate(v), with the stack that is left *)
  | Edit (d : doc).                            (* assignments and deletions that lead to [d] *)
  (** the schema at the time of a call, its stack, the value and the outcome *)
  Record outcome := Outcome { o_doc : doc; o_fuel : nat; o_value : pv; o_result : res unit }.
  Fixpoint session (l : list step) (d : doc) (h : @heap node) : list outcome * doc * @heap node :=
    match l with
    | [] => ([], d, h)
    | Validate fuel v :: l' =>
        let (h1, r) := validateM (d_view d) (d_str d) E voc fuel 0 v [] h in
        let '(log, d', h') := session l' d h1 in (Outcome d fuel v r :: log, d', h')
    | Edit d1 :: l' => session l' d1 h
    end.
End SchemaEdits.
Arguments Doc {node}. Arguments d_view {node}. Arguments d_str {node}. Arguments Validate {node}. Arguments Edit {node}. Arguments Outcome {node}. Arguments o_doc {node}. Arguments o_fuel {node}. Arguments o_value {node}. Arguments o_result {node}.
