(** C30 on concrete sessions. *)
From Verif Require Import PyBase PyVal Errors Validators Keywords Memory KeywordFacts Master Claims ScalarFacts PropsScalar ExBase PropsMemory.
Local Open Scope Z_scope.

Definition sess := after tview ex_strx ex_env all_keywords.
Definition call fuel v h := snd (validateM tview ex_strx ex_env all_keywords fuel 0%nat v [] h).

(** a recursive-looking schema whose validators are built on demand *)
Definition mem_schema : jt :=
  jobj [("properties", jobj [("a", jobj [("minLength", jnum 2)]); ("b", jobj [("not", jobj [("type", jstr "null")])])])]%string.
Definition mem_calls : list (nat * pv) :=
  [(9, jdict [("a", VStr (u "x"))]%string); (1, jdict [("b", VNone)]%string); (9, jdict [("b", VNone)]%string)]%nat.
(** the history changes the state of the object: three validators were allocated *)
Example C30_state_changes : next (sess mem_calls (fresh mem_schema)) = 4%nat.
Proof. vm_compute. reflexivity. Qed.
Example C30_ex :
  call 9 (jdict [("a", VStr (u "xyz")); ("b", VNone)]%string) (sess mem_calls (fresh mem_schema)) =
  Raise (EValid (VErr KNot (u "b"))) /\
  call 9 (jdict [("a", VStr (u "x"))]%string) (sess mem_calls (fresh mem_schema)) =
  Raise (EValid (VErr (KMinLength 2) (u "a"))).
Proof. vm_compute. auto. Qed.

(** a schema that cannot be built: the first call leaves a half-filled table
    ([maxLength] is in it, [pattern] is not), later calls still raise *)
Definition half_schema : jt :=
  jobj [("maxLength", jnum 3); ("pattern", jstr "("); ("type", jstr "string")]%string.
Example C30_half_built :
  (exists o, c_state (cells (sess [(9, VStr (u "a"))]%nat (fresh half_schema)) 0%nat) = Building [(u "maxLength", o)]) /\
  call 9 (VStr (u "a")) (fresh half_schema) = Raise ERe /\
  call 9 (VStr (u "a")) (sess [(9, VStr (u "a")); (9, VInt 1)]%nat (fresh half_schema)) = Raise ERe.
Proof. split; [eexists; vm_compute; reflexivity|]. split; vm_compute; reflexivity. Qed.
(** the theorem at these schemas *)
Example C30_ex_hyp calls fuel v : call fuel v (sess calls (fresh half_schema)) = call fuel v (fresh half_schema).
Proof. apply C30_no_memory. exact tview_wf. Qed.

Print Assumptions C30_no_memory.
Print Assumptions C30_stateless.
