(** Formats registered between calls of [validate]: [StringFormat[name] = test]
    ([string_format.py:72-73]), with the validators of [Memory.v], built lazily and kept
    ([json_core.py:64-94, 114-127]). *)
From Verif Require Import PyBase PyVal Errors Validators Keywords Memory.
Local Open Scope nat_scope.

(** [_formats[name] = test]; there is no way to take a format away *)
Definition with_format (E : env) (name : pystr) (test : pv -> res bool) : env :=
  Env (re_ok E) (re_search E) (fun n => if str_eqb n name then Some test else fmt E n) (dec_of_str E).

Section Sessions.
  Context {node : Type} (view : node -> res (nview node)) (strx : node -> pystr).
  Variable voc : list akw.
  Inductive fstep :=
  | FValidate (fuel : nat) (v : pv)            (* schema.validate(v), with the stack that is left *)
  | FRegister (name : pystr) (test : pv -> res bool).
  (** the formats at the time of a call, its stack, the value and the outcome *)
  Record foutcome := FOutcome { fo_env : env; fo_fuel : nat; fo_value : pv; fo_result : res unit }.
  Fixpoint fsession (l : list fstep) (E : env) (h : @heap node) : list foutcome * env * @heap node :=
    match l with
    | [] => ([], E, h)
    | FValidate fuel v :: l' =>
        let (h1, r) := validateM view strx E voc fuel 0 v [] h in
        let '(log, E', h') := fsession l' E h1 in (FOutcome E fuel v r :: log, E', h')
    | FRegister name test :: l' => fsession l' (with_format E name test) h
    end.
End Sessions.
