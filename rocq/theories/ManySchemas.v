(** Several schema objects in one process: [JsonSchema(document)] ([json_core.py:97-127])
    keeps a root validator of its own, the default [Context()] of [validate]
    ([core_validators.py:48, 86]) is one object for all calls but nothing writes to it,
    and the registry of formats ([string_format.py:72-73]) is shared.
    Simplified: all objects have the same vocabulary and documents that are loaded; the
    root validator is made with the object, not at its first call. *)
From Verif Require Import PyBase PyVal Errors Validators Keywords Memory FormatSession.
Local Open Scope nat_scope.

Section Many.
  Context {node : Type} (view : node -> res (nview node)) (strx : node -> pystr).
  Variable voc : list akw.
  Inductive mstep :=
  | MNew (n : node)                            (* JsonSchema(n, voc) *)
  | MValidate (i fuel : nat) (v : pv)          (* validate(v) of the schema object made as number i *)
  | MRegister (name : pystr) (test : pv -> res bool).
  (** the process: the formats, the root validators of the objects made so far, all validators *)
  Record process := Process { pr_env : env; pr_roots : list lid; pr_heap : @heap node }.
  Definition mrun (s : mstep) (p : process) : process * option (res unit) :=
    match s with
    | MNew n => let (h, l) := alloc n (pr_heap p) in (Process (pr_env p) (pr_roots p ++ [l]) h, None)
    | MValidate i fuel v =>
        match nth_error (pr_roots p) i with
        | None => (p, None)
        | Some l =>
            match view (c_node (cells (pr_heap p) l)) with
            | Ok w =>
                match nv_val w with
                | NObj _ => let (h, r) := validateM view strx (pr_env p) voc fuel l v [] (pr_heap p) in (Process (pr_env p) (pr_roots p) h, Some r)
                | _ => (p, Some (Ok tt))       (* an empty [CompoundValidator], [json_core.py:119-120] *)
                end
            | Raise e => (p, Some (Raise e))
            | OutOfFuel => (p, Some OutOfFuel)
            end
        end
    | MRegister name test => (Process (with_format (pr_env p) name test) (pr_roots p) (pr_heap p), None)
    end.
  Fixpoint mruns (l : list mstep) (p : process) : process :=
    match l with [] => p | s :: l' => mruns l' (fst (mrun s p)) end.
  (** the process with its first schema object *)
  Definition started (E : env) (n : node) : process := Process E [0] (fresh n).
End Many.
Arguments mstep : clear implicits.
Arguments process : clear implicits.
