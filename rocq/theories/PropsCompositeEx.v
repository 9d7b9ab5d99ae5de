(** Refutations, examples that meet the hypotheses of [PropsComposite],
    [PropsObject] and [PropsOrder], and the assumptions of their theorems. *)
From Verif Require Import PyBase PyBaseFacts PyVal Errors Validators Keywords Spec LeafFacts Mono RunFacts KeywordFacts Master Claims ScalarFacts PropsScalar CompositeFacts PropsComposite PropsObject RejectFacts OrderFacts PropsOrder ExBase.
From Coq Require Import QArith Qabs ZifyBool Permutation.
Local Open Scope Z_scope.

Notation acc := (Accepts tview ex_strx ex_env all_keywords).
Notation rejs := (Rejects tview ex_strx ex_env all_keywords).
Notation outc := (Outcome tview ex_strx ex_env all_keywords).
Notation rejw := (RejectsWith tview ex_strx ex_env all_keywords).
Ltac acc_tac := exists 8%nat; vm_compute; reflexivity.
Ltac rej_tac := exists 8%nat; eexists; vm_compute; reflexivity.
Ltac outc_tac := split; [discriminate|exists 8%nat; vm_compute; reflexivity].
Ltac objat := apply obj_members'.
Ltac onlytac := apply only_b_ok; vm_compute; reflexivity.

Definition t_string := jobj [("type", jstr "string")]%string.
Definition t_number := jobj [("type", jstr "number")]%string.
Definition t_int := jobj [("type", jstr "integer")]%string.
Definition t_min3 := jobj [("minimum", jnum 3)]%string.

(** ** C14, C17, C18, C19, C20 *)
Example C14_ex : let n := jobj [("dependentSchemas", jobj [("a", jobj [("required", TArr [jstr "b"])])])]%string in
  acc n (jdict [("a", VInt 1); ("b", VInt 2)]%string) [] /\ acc n (VInt 1) [] /\
  outc n (jdict [("a", VInt 1)]%string) [] (Raise (EValid (VErr (KRequired (u "b")) []))).
Proof.
  set (t := jobj [("a", jobj [("required", TArr [jstr "b"])])]%string). intro n.
  assert (Hl : lone all_keywords (members n) KwDependentSchemas t) by lone_tac.
  pose proof (fun v => C14_dependent_schemas tview ex_strx ex_env all_keywords tview_wf n (members n) t (members t) v []
     (obj_members' _) Hl (obj_members' _)) as H.
  split; [|split].
  - apply H. intros d [= <-] key s [[= <- <-]|[]] _. acc_tac.
  - apply H. discriminate.
  - eapply (proj2 (H _)) with (before := []); [reflexivity|reflexivity|intros ? ? []|left; reflexivity|].
    outc_tac.
Qed.
Example C17_ex : let n := jobj [("allOf", TArr [t_number; t_min3])]%string in
  acc n (VInt 3) [] /\ outc n (VInt 2) [u "k"] (Raise (EValid (VErr (KMinimum (Dec 3 0)) (u "k")))).
Proof.
  intro n. assert (Hl : lone all_keywords (members n) KwAllOf (TArr [t_number; t_min3])) by lone_tac.
  pose proof (fun v c => C17_allOf tview ex_strx ex_env all_keywords tview_wf n (members n) _ [t_number; t_min3] v c
     (obj_members' _) Hl eq_refl) as H. split.
  - apply H. intros s [<-|[<-|[]]]; acc_tac.
  - eapply (proj2 (H _ _)) with (before := [t_number]); [reflexivity| |outc_tac].
    intros s [<-|[]]; acc_tac.
Qed.
Example C18_ex : let n := jobj [("anyOf", TArr [t_string; t_min3])]%string in
  acc n (VStr (u "x")) [] /\ acc n (VInt 5) [] /\ outc n (VInt 2) [] (Raise (EValid (VErr (KMinimum (Dec 3 0)) []))).
Proof.
  intro n. assert (Hl : lone all_keywords (members n) KwAnyOf (TArr [t_string; t_min3])) by lone_tac.
  split; [|split].
  - apply (C18_anyOf_short_circuit tview ex_strx ex_env all_keywords tview_wf n (members n) _ [] t_string [t_min3] _ _
             (obj_members' _) Hl eq_refl); [intros ? []|acc_tac].
  - apply (C18_anyOf tview ex_strx ex_env all_keywords tview_wf n (members n) _ [t_string; t_min3] (VInt 5) []
             (obj_members' _) Hl eq_refl).
    + intros s [<-|[<-|[]]]; [right; rej_tac|left; acc_tac].
    + exists t_min3. split; [right; left; reflexivity|acc_tac].
  - eapply (C18_anyOf tview ex_strx ex_env all_keywords tview_wf n (members n) _ [t_string; t_min3] (VInt 2) []
             (obj_members' _) Hl eq_refl) with (before := [t_string]); [|reflexivity| |outc_tac].
    + intros s [<-|[<-|[]]]; right; rej_tac.
    + intros s [<-|[<-|[]]]; rej_tac.
Qed.
Example C19_ex : let n := jobj [("oneOf", TArr [t_number; t_int])]%string in
  acc n (VFloat f01) [] /\ rejw n (VInt 2) [u "k"] KOneOf [u "k"].
Proof.
  intro n. assert (Hl : lone all_keywords (members n) KwOneOf (TArr [t_number; t_int])) by lone_tac. split.
  - apply (C19_oneOf tview ex_strx ex_env all_keywords tview_wf n (members n) _ [t_number; t_int] (VFloat f01) []
             (obj_members' _) Hl eq_refl).
    + intros s [<-|[<-|[]]]; [left; acc_tac|right; rej_tac].
    + exists 0%nat, t_number. split; [reflexivity|]. split; [acc_tac|].
      intros [|[|[|j]]] s' Hj Hs; try discriminate; [reflexivity|]. injection Hj as <-. exfalso.
      apply (accepts_not_rejects tview ex_strx ex_env all_keywords _ _ _ Hs). rej_tac.
  - eapply (C19_oneOf tview ex_strx ex_env all_keywords tview_wf n (members n) _ [t_number; t_int] (VInt 2) [u "k"]
             (obj_members' _) Hl eq_refl) with (i := 0%nat) (j := 1%nat);
      [|reflexivity|reflexivity|discriminate|acc_tac|acc_tac|plain_tac].
    intros s [<-|[<-|[]]]; left; acc_tac.
Qed.
Example C20_ex : let n := jobj [("not", t_string)]%string in
  acc n (VInt 2) [] /\ rejw n (VStr (u "x")) [u "k"] KNot [u "k"].
Proof.
  intro n. assert (Hl : lone all_keywords (members n) KwNot t_string) by lone_tac.
  pose proof (fun v c => C20_not tview ex_strx ex_env all_keywords tview_wf n (members n) _ v c
     (obj_members' _) Hl (ex_intro _ _ (obj_members' _))) as H. split.
  - apply H. rej_tac.
  - apply (proj1 (proj2 (H (VStr (u "x")) [u "k"]))). acc_tac.
Qed.

(** ** C21 fails: a conditional without [else] raises [KeyError] on instances
    rejected by [if] *)
Theorem C21_missing_else_refuted :
  exists n i v, obj_at tview n (members n) /\ dget (u "if") (members n) = Some i /\
    dget (u "else") (members n) = None /\
    (forall strx E, Rejects tview strx E all_keywords i v []) /\
    (forall strx E, ~ Accepts tview strx E all_keywords n v []) /\
    (forall strx E, Outcome tview strx E all_keywords n v [] (Raise (EKey (u "else")))).
Proof.
  exists (jobj [("if", t_string); ("then", t_min3)]%string), t_string, (VInt 1).
  split; [objat|]. split; [reflexivity|]. split; [reflexivity|].
  assert (H : forall strx E, Outcome tview strx E all_keywords (jobj [("if", t_string); ("then", t_min3)]%string) (VInt 1) [] (Raise (EKey (u "else")))).
  { intros strx E. outc_tac. }
  split; [intros; rej_tac|]. split; [|exact H]. intros strx E Ha. apply outcome_accepts in Ha.
  pose proof (outcome_fun tview strx E all_keywords _ _ _ _ _ Ha (H strx E)). discriminate.
Qed.
Example C21_ex : let n := jobj [("if", t_string); ("then", jobj [("minLength", jnum 2)]); ("else", t_min3)]%string in
  outc n (VStr (u "ab")) [] (Ok tt) /\ outc n (VInt 2) [] (Raise (EValid (VErr (KMinimum (Dec 3 0)) []))).
Proof.
  intro n.
  pose proof (fun v r => C21_if_then_else tview ex_strx ex_env all_keywords tview_wf n (members n) t_string
    (jobj [("minLength", jnum 2)]%string) t_min3 v [] r (obj_members' _)) as H.
  assert (Ho : only all_keywords (members n) [KwIf; KwThen; KwElse]) by onlytac.
  assert (Hb : forall v r, (acc t_string v [] -> outc (jobj [("minLength", jnum 2)]%string) v [] r -> outc n v [] r) /\
                           (rejs t_string v [] -> outc t_min3 v [] r -> outc n v [] r)).
  { intros v r. apply H; [exact Ho| | |]; (split; [simpl; tauto|]; split; [reflexivity|eexists; objat]). }
  split; [apply (proj1 (Hb _ _)); [acc_tac|outc_tac]|apply (proj2 (Hb _ _)); [rej_tac|outc_tac]].
Qed.
Example C21_missing_ex :
  acc (jobj [("if", t_string)]%string) (VStr (u "ab")) [] /\
  acc (jobj [("if", t_string); ("else", t_min3)]%string) (VStr (u "ab")) [] /\
  outc (jobj [("if", t_string)]%string) (VInt 1) [] (Raise (EKey (u "else"))) /\
  acc (jobj [("then", t_string); ("else", t_min3)]%string) (VInt 1) [].
Proof.
  split; [|split; [|split]].
  - refine (proj1 (C21_missing_then tview ex_strx ex_env all_keywords tview_wf _ _ t_string None (VStr (u "ab")) [] (obj_members' _) _ _ _ _) _);
      [onlytac| | | |acc_tac].
    + split; [simpl; tauto|]. split; [reflexivity|eexists; objat].
    + intros [_ H]. vm_compute in H. intuition discriminate.
    + intros [_ H]. vm_compute in H. intuition discriminate.
  - refine (proj1 (C21_missing_then tview ex_strx ex_env all_keywords tview_wf _ _ t_string (Some t_min3) (VStr (u "ab")) [] (obj_members' _) _ _ _ _) _);
      [onlytac| | | |acc_tac].
    + split; [simpl; tauto|]. split; [reflexivity|eexists; objat].
    + intros [_ H]. vm_compute in H. intuition discriminate.
    + split; [simpl; tauto|]. split; [reflexivity|eexists; objat].
  - eapply (C21_missing_else tview ex_strx ex_env all_keywords tview_wf _ _ t_string None); [objat|onlytac| | | |rej_tac].
    + split; [simpl; tauto|]. split; [reflexivity|eexists; objat].
    + intros [_ H]. vm_compute in H. intuition discriminate.
    + intros [_ H]. vm_compute in H. intuition discriminate.
  - eapply (C21_no_if tview ex_strx ex_env all_keywords tview_wf _ _ (Some t_string) (Some t_min3)); [objat|onlytac| | |].
    + intros [_ H]. vm_compute in H. intuition discriminate.
    + split; [simpl; tauto|]. split; [reflexivity|eexists; objat].
    + split; [simpl; tauto|]. split; [reflexivity|eexists; objat].
Qed.

(** ** C22 *)
Lemma schema_obj l : schema_at tview (jobj l).
Proof. eexists. split; [reflexivity|exact I]. Qed.
Example C22_ex : let n := jobj [("items", t_min3)]%string in
  acc n (VList [VInt 3; VInt 4]) [u "k"] /\
  outc n (VList [VInt 3; VInt 1; VStr []]) [u "k"] (Raise (EValid (VErr (KMinimum (Dec 3 0)) (u "k.1")))) /\
  rejw n (VInt 7) [u "k"] (KType [u "array"]) [].
Proof.
  intro n. assert (Hl : lone all_keywords (members n) KwItems t_min3) by lone_tac. split; [|split].
  - apply (C22_items tview ex_strx ex_env all_keywords tview_wf n (members n) t_min3 [VInt 3; VInt 4] [u "k"] (obj_members' _) Hl (schema_obj _)).
    intros [|[|[|i]]] y Hy; simpl in Hy; try discriminate; injection Hy as <-; acc_tac.
  - eapply (proj2 (C22_items tview ex_strx ex_env all_keywords tview_wf n (members n) t_min3 _ [u "k"] (obj_members' _) Hl (schema_obj _)))
      with (i := 1%nat); [reflexivity| |outc_tac].
    intros [|j] z Hj Hz; [injection Hz as <-; acc_tac|lia].
  - apply (C22_items_not_array tview ex_strx ex_env all_keywords tview_wf n (members n) t_min3 _ _ (obj_members' _) Hl (schema_obj _)).
    discriminate.
Qed.
Example C22_tuple_ex : let n := jobj [("items", TArr [t_string; t_number]); ("additionalItems", t_min3)]%string in
  acc n (VList [VStr []; VInt 0; VInt 3]) [] /\ ~ acc n (VList [VStr []; VInt 0; VInt 2]) [].
Proof.
  intro n. assert (Hl : lone all_keywords (members n) KwItems (TArr [t_string; t_number])) by lone_tac.
  assert (Ha : additional_at tview (members n) (Some t_min3)) by (split; [reflexivity|eexists; split; [reflexivity|discriminate]]).
  pose proof (fun vals => C22_tuple_items tview ex_strx ex_env all_keywords tview_wf n (members n) _ [t_string; t_number] (Some t_min3) vals []
    (obj_members' _) Hl eq_refl Ha) as H. split.
  - apply H. split; [simpl; lia|]. split.
    + intros [|[|[|i]]] s y Hs Hy; simpl in Hs; try discriminate; injection Hs as <-; injection Hy as <-; acc_tac.
    + intros s [= <-] [|[|[|[|i]]]] y Hi Hy; simpl in Hi, Hy; try lia; try discriminate. injection Hy as <-. acc_tac.
  - intro Hc. apply H in Hc as (_ & _ & Hc). specialize (Hc t_min3 eq_refl 2%nat (VInt 2) (le_n _) eq_refl).
    apply (accepts_not_rejects tview ex_strx ex_env all_keywords _ _ _ Hc). rej_tac.
Qed.
Example C22_prefix_ex : let n := jobj [("prefixItems", TArr [t_string; t_number])]%string in
  acc n (VList [VStr []; VInt 0; VNone]) [] /\ ~ acc n (VList [VStr []; VStr []]) [].
Proof.
  intro n. assert (Hl : lone all_keywords (members n) KwPrefixItems (TArr [t_string; t_number])) by lone_tac.
  pose proof (fun vals => C22_prefix_items tview ex_strx ex_env all_keywords tview_wf n (members n) _ [t_string; t_number] vals []
    (obj_members' _) Hl eq_refl) as H. split.
  - apply H. split; [simpl; lia|].
    intros [|[|[|i]]] s y Hs Hy; simpl in Hs; try discriminate; injection Hs as <-; injection Hy as <-; acc_tac.
  - intro Hc. apply H in Hc as (_ & Hc). specialize (Hc 1%nat t_number (VStr []) eq_refl eq_refl).
    apply (accepts_not_rejects tview ex_strx ex_env all_keywords _ _ _ Hc). rej_tac.
Qed.

(** ** C23 fails: [{"items": [true]}] on [[]] loops for ever *)
Theorem C23_arrays_terminate_refuted :
  exists n, forall strx E, Diverges tview strx E all_keywords n (VList []) [].
Proof.
  exists (jobj [("items", TArr [TBool true])]%string). intros strx E.
  eapply (C23_short_array_diverges tview strx E all_keywords tview_wf _ _ [TBool true] None [] (TBool true) []).
  - objat.
  - left. exists (TArr [TBool true]). split; [lone_tac|]. split; [reflexivity|left; reflexivity].
  - intros [|i] p y _ Hy; discriminate.
  - reflexivity.
  - acc_tac.
Qed.
Example C23_ex : exists r, outc (jobj [("prefixItems", TArr [t_string; t_number])]%string) (VList [VStr []]) [] r.
Proof.
  eapply (C23_arrays_terminate_partial tview ex_strx ex_env all_keywords tview_wf _ _ [t_string; t_number] None [VStr []] []).
  - objat.
  - right. exists (TArr [t_string; t_number]). split; [lone_tac|]. split; reflexivity.
  - intros [|i] s y Hs Hy; simpl in *; [injection Hs as <-; injection Hy as <-|destruct i; discriminate].
    exists (Ok tt). outc_tac.
  - discriminate.
  - right. exists t_number. eexists. split; [reflexivity|]. outc_tac.
Qed.

(** ** C24 fails: [maxContains: 0] is ignored *)
Theorem C24_max_contains_refuted :
  exists n m, obj_at tview n (members n) /\ dget (u "contains") (members n) = Some m /\
    bound_at tview (members n) (u "maxContains") (Some 0) /\
    forall strx E, Accepts tview strx E all_keywords m (VInt 1) [] /\
      Accepts tview strx E all_keywords n (VList [VInt 1; VInt 1]) [].
Proof.
  exists (jobj [("contains", t_number); ("minContains", jnum 0); ("maxContains", jnum 0)]%string), t_number.
  split; [objat|]. split; [reflexivity|]. split.
  - exists (jnum 0), (Dec 0 0). split; [reflexivity|]. split; [reflexivity|].
    unfold int_part. vm_compute. intuition discriminate.
  - intros strx E. split; acc_tac.
Qed.
Example C24_ex : let n := jobj [("contains", t_string); ("minContains", jnum 2); ("maxContains", jnum 3)]%string in
  acc n (VList [VStr []; VInt 0; VStr []]) [] /\ ~ acc n (VList [VStr []; VInt 0]) [].
Proof.
  intro n. assert (Hl : lone all_keywords (members n) KwContains t_string) by lone_tac.
  assert (H2 : bound_at tview (members n) (u "minContains") (Some 2)).
  { exists (jnum 2), (Dec 2 0). split; [reflexivity|]. split; [reflexivity|]. unfold int_part. vm_compute. intuition discriminate. }
  assert (H3 : bound_at tview (members n) (u "maxContains") (Some 3)).
  { exists (jnum 3), (Dec 3 0). split; [reflexivity|]. split; [reflexivity|]. unfold int_part. vm_compute. intuition discriminate. }
  split.
  - apply (C24_contains_partial tview ex_strx ex_env all_keywords tview_wf n (members n) t_string (Some 2) (Some 3) _ 2 []
      (obj_members' _) Hl (ex_intro _ _ (obj_members' _)) H2 H3); [discriminate| |].
    + change 2 with (0 + 1 + 1). apply counted_yes; [acc_tac|]. apply counted_no; [rej_tac|]. apply counted_yes; [acc_tac|]. apply counted_nil.
    + split; [simpl; lia|]. intros M [= <-]. lia.
  - intro Hc. apply (C24_contains_exact tview ex_strx ex_env all_keywords tview_wf n (members n) t_string (Some 2) (Some 3) _ 1 []
      (obj_members' _) Hl (ex_intro _ _ (obj_members' _)) H2 H3) in Hc as [Hc _].
    + simpl in Hc. lia.
    + change 1 with (0 + 1). apply counted_yes; [acc_tac|]. apply counted_no; [rej_tac|]. apply counted_nil.
Qed.

(** ** C25 *)
(** distinct JSON values that Python identifies are treated as repeats *)
Theorem C25_python_equality : forall strx E,
  let n := jobj [("uniqueItems", TBool true)]%string in
  Rejects tview strx E all_keywords n (VList [VInt 1; VBool true]) [] /\
  Rejects tview strx E all_keywords n (VList [VBool false; VFloat (PFloat 0 0 (Dec 0 (-1)))]) [].
Proof. intros strx E n. split; rej_tac. Qed.
Example C25_ex : let n := jobj [("uniqueItems", TBool true)]%string in
  acc n (VList [VInt 1; VStr (u "1"); VNone]) [] /\
  outc n (VList [VInt 1; VInt 2; VFloat (PFloat 2 0 (Dec 20 (-1))); VInt 1]) [u "k"] (Raise (EValid (VErr KUnique (u "k2")))).
Proof.
  intro n. assert (Hl : lone all_keywords (members n) KwUniqueItems (TBool true)) by lone_tac. split.
  - apply (C25_unique tview ex_strx ex_env all_keywords tview_wf n (members n) _ [VInt 1; VStr (u "1"); VNone] [] (obj_members' _) Hl eq_refl).
    + intros y [<-|[<-|[<-|[]]]]; exact I.
    + intros [|[|[|i]]] [|[|[|j]]] x y Hij Hx Hy; simpl in Hx, Hy; try lia; try (destruct i; discriminate); try (destruct j; discriminate);
        injection Hx as <-; injection Hy as <-; rewrite equal_values_eq by exact I; discriminate.
  - eapply (C25_unique tview ex_strx ex_env all_keywords tview_wf n (members n) _ _ [u "k"] (obj_members' _) Hl eq_refl) with (i := 2%nat);
      [| |plain_tac].
    + intros y [<-|[<-|[<-|[<-|[]]]]]; exact I.
    + exists 1%nat, (VInt 2), (VFloat (PFloat 2 0 (Dec 20 (-1)))). split; [lia|]. split; [reflexivity|]. split; [reflexivity|].
      split; [apply equal_values_eq; reflexivity || exact I|]. intros [|[|i]] [|[|j]] x y Hij Hx Hy; simpl in Hx, Hy; try lia; try (destruct i; discriminate);
        try (destruct j; discriminate); injection Hx as <-; injection Hy as <-; rewrite equal_values_eq by exact I; discriminate.
Qed.
Example C25_false_ex : acc (jobj [("uniqueItems", TBool false)]%string) (VList [VInt 1; VInt 1]) [].
Proof.
  eapply (C25_unique_false tview ex_strx ex_env all_keywords tview_wf _ _ (TBool false)); [objat|lone_tac|reflexivity].
Qed.

(** ** C29, C32 *)
Example C29_ex : acc (TBool true) (VInt 1) [] /\ rejw (TBool false) VNone [u "a"] KFail [u "a"].
Proof.
  split.
  - apply (C29_boolean_schemas tview ex_strx ex_env all_keywords (TBool true) (NView (NBool true) false) true _ _ eq_refl eq_refl). reflexivity.
  - apply (C29_boolean_schemas tview ex_strx ex_env all_keywords (TBool false) (NView (NBool false) false) false _ _ eq_refl eq_refl). reflexivity.
Qed.
Example C32_ex : forall r, outc t_min3 (VInt 2) [] r -> r = Raise (EValid (VErr (KMinimum (Dec 3 0)) [])).
Proof.
  intros r H. apply (C32_one_outcome tview ex_strx ex_env all_keywords t_min3 (VInt 2) [] _ _ H). outc_tac.
Qed.

(** ** C15, C16, C26 *)
Example C15_ex :
  let n := jobj [("properties", jobj [("a", t_string)]);
                 ("patternProperties", jobj [("n", t_number); ("nx", t_min3)]);
                 ("additionalProperties", t_int)]%string in
  acc n (jdict [("a", VStr []); ("ny", VFloat f01); ("nx", VInt 3); ("z", VInt 0)]%string) [] /\
  outc n (jdict [("a", VStr []); ("nx", VInt 2); ("z", VNone)]%string) [u "k"] (Raise (EValid (VErr (KMinimum (Dec 3 0)) (u "k.nx")))) /\
  acc n (VInt 4) [].
Proof.
  intro n.
  assert (Ho : object_schema tview all_keywords n (members (jobj [("a", t_string)]%string))
                 (members (jobj [("n", t_number); ("nx", t_min3)]%string)) (By t_int) false None).
  { exists (members n). split; [objat|]. split; [onlytac|].
    split; [right; eexists; split; [split; [simpl; tauto|reflexivity]|objat]|].
    split; [right; eexists; split; [split; [simpl; tauto|reflexivity]|objat]|].
    split; [split; [split; [simpl; tauto|reflexivity]|eexists; objat]|].
    split; [left; split; [reflexivity|]|]; intros [_ H]; vm_compute in H; intuition discriminate. }
  assert (Hg : good_patterns ex_env (members (jobj [("n", t_number); ("nx", t_min3)]%string))).
  { intros p s [[= <- <-]|[[= <- <-]|[]]]; reflexivity. }
  assert (Hm1 : matches ex_env (members (jobj [("n", t_number); ("nx", t_min3)]%string)) (u "nx")).
  { exists (u "n"), t_number. split; [left; reflexivity|reflexivity]. }
  split; [|split].
  - apply (C15_members tview ex_strx ex_env all_keywords tview_wf n _ _ _ _ _ [] Ho Hg).
    intros key y [[= <- <-]|[[= <- <-]|[[= <- <-]|[[= <- <-]|[]]]]].
    + apply (by_property _ _ _ _ _ _ _ _ _ _ _ t_string); [reflexivity|acc_tac].
    + apply by_patterns; [intros [Hq|[]]; discriminate| |].
      * exists (u "n"), t_number. split; [left; reflexivity|reflexivity].
      * intros p s [[= <- <-]|[[= <- <-]|[]]] Hq; [acc_tac|discriminate].
    + apply by_patterns; [intros [Hq|[]]; discriminate|exact Hm1|].
      intros p s [[= <- <-]|[[= <- <-]|[]]] Hq; acc_tac.
    + apply (by_additional _ _ _ _ _ _ _ _ _ _ _ t_int); [intros [Hq|[]]; discriminate| |reflexivity|acc_tac].
      intros (p & s & [[= <- <-]|[[= <- <-]|[]]] & Hq); discriminate.
  - change [(u "a", VStr []); (u "nx", VInt 2); (u "z", VNone)] with ([(u "a", VStr [])] ++ (u "nx", VInt 2) :: [(u "z", VNone)]).
    eapply (C15_first_fault tview ex_strx ex_env all_keywords tview_wf n _ _ _ _ [(u "a", VStr [])] (u "nx") (VInt 2) [(u "z", VNone)] _ _ Ho Hg).
    + intros k x [[= <- <-]|[]]. apply (by_property _ _ _ _ _ _ _ _ _ _ _ t_string); [reflexivity|acc_tac].
    + eapply (bad_pattern _ _ _ _ _ _ _ _ _ _ _ [(u "n", t_number)] (u "nx") t_min3 []);
        [intros [Hq|[]]; discriminate|reflexivity| |reflexivity|outc_tac].
      intros p s [[= <- <-]|[]] _. acc_tac.
  - apply (C15_not_object tview ex_strx ex_env all_keywords tview_wf n _ _ _ _ _ (VInt 4) [] Ho). discriminate.
Qed.
Example C16_ex : let n := jobj [("propertyNames", jobj [("maxLength", jnum 1)])]%string in
  acc n (jdict [("a", VInt 1); ("b", VNone)]%string) [] /\ ~ acc n (jdict [("a", VInt 1); ("bb", VNone)]%string) [].
Proof.
  intro n.
  assert (Ho : object_schema tview all_keywords n [] [] Free false (Some (jobj [("maxLength", jnum 1)]%string))).
  { exists (members n). split; [objat|]. split; [onlytac|].
    split; [left; split; [|reflexivity]; intros [_ H]; vm_compute in H; intuition discriminate|].
    split; [left; split; [|reflexivity]; intros [_ H]; vm_compute in H; intuition discriminate|].
    split; [left; intros [_ H]; vm_compute in H; intuition discriminate|].
    split; [left; split; [reflexivity|]; intros [_ H]; vm_compute in H; intuition discriminate|].
    split; [split; [simpl; tauto|reflexivity]|eexists; objat]. }
  pose proof (fun d => C16_property_names tview ex_strx ex_env all_keywords tview_wf n _ _ _ _ _ d [] Ho (fun p s (H : In (p, s) []) => match H with end)) as H.
  split.
  - apply H. split.
    + intros key [<-|[<-|[]]]; acc_tac.
    + intros key y _. apply unrestricted; try reflexivity; [intros []|intros (p & s & [] & _)].
  - intro Hc. apply H in Hc as [Hc _]. specialize (Hc (u "bb") (or_intror (or_introl eq_refl))).
    apply (accepts_not_rejects tview ex_strx ex_env all_keywords _ _ _ Hc). rej_tac.
Qed.
Example C26_ex : let n := jobj [("title", jstr "t"); ("type", jstr "number"); ("minimum", jnum 3)]%string in
  compiles tview ex_strx ex_env all_keywords n /\ acc n (VInt 3) [] /\
  (forall f v c, validate tview ex_strx ex_env all_keywords f n v c =
     validate tview ex_strx ex_env all_keywords f (jobj [("minimum", jnum 3); ("type", jstr "number"); ("x-y", TNull)]%string) v c).
Proof.
  intro n. assert (Hc : compiles tview ex_strx ex_env all_keywords n) by (eexists; vm_compute; reflexivity).
  split; [exact Hc|]. split.
  - apply (C26_conjunction tview ex_strx ex_env all_keywords tview_wf n (members n) _ _ (obj_members' _) Hc).
    intros k m x Hk Hm Hx.
    destruct k; vm_compute in Hm; try discriminate; injection Hm as <-; injection Hx as <-; cbn [nv_val demands].
    + exists (inject_Z 3). split; [reflexivity|]. split; [discriminate|]. intros (m & w & Hm & _). discriminate.
    + right. reflexivity.
  - intros f v c. eapply (C26_unrecognised tview ex_strx ex_env all_keywords _ _ (members n)); [objat|objat|].
    intros k key Hk Hin. destruct k; simpl in Hin; intuition subst; reflexivity.
Qed.

(** ** C27 fails *)
(** with [items] before [prefixItems] the schema cannot be compiled; swapped it can *)
Theorem C27_items_conflict_refuted :
  exists voc voc' n v, Permutation voc voc' /\ forall strx E,
    Accepts tview strx E voc n v [] /\ Outcome tview strx E voc' n v [] (Raise (EKey (u "prefixItems"))).
Proof.
  exists [KwPrefixItems; KwItems], [KwItems; KwPrefixItems],
    (jobj [("items", t_number); ("prefixItems", TArr [t_string])]%string), (VList [VInt 1]).
  split; [constructor|]. intros strx E. split; [acc_tac|outc_tac].
Qed.
(** under [not], the order decides whether the first complaint is a
    [ValidationError] (accepted) or a [TypeError] (raised) *)
Theorem C27_not_order_refuted :
  exists voc voc' n v, Permutation voc voc' /\ forall strx E,
    Accepts tview strx E voc n v [] /\ Outcome tview strx E voc' n v [] (Raise EType).
Proof.
  exists [KwNot; KwType; KwMinLength], [KwNot; KwMinLength; KwType],
    (jobj [("not", jobj [("type", jstr "string"); ("minLength", jnum 1)])]%string), (VInt 1).
  split; [repeat constructor|]. intros strx E. split; [acc_tac|outc_tac].
Qed.
Lemma ex_env_blind : order_blind ex_env.
Proof.
  intros f test v v' Hf Hs. simpl in Hf. destruct (str_eqb f (u "even")); [injection Hf as <-|discriminate].
  destruct Hs; reflexivity.
Qed.
Lemma validator_vocabulary_positive : forall k, In k validator_vocabulary -> only_requires k.
Proof. intros k H. simpl in H. intuition subst; exact I. Qed.
Lemma validator_vocabulary_items : ~ (In KwItems validator_vocabulary /\ In KwPrefixItems validator_vocabulary).
Proof. intros [_ H]. simpl in H. intuition discriminate. Qed.
Example C27_ex : let n := jobj [("type", jstr "number"); ("minimum", jnum 3)]%string in
  (Accepts tview ex_strx ex_env validator_vocabulary n (VInt 3) [] <->
   Accepts tview ex_strx ex_env (rev validator_vocabulary) n (VInt 3) []) /\
  Accepts tview ex_strx ex_env (rev validator_vocabulary) n (VInt 3) [] /\
  ~ Rejects tview ex_strx ex_env (rev all_keywords) n (VInt 3) [] /\
  (acc n (VInt 2) [] <-> Accepts tview ex_strx ex_env (rev all_keywords) n (VInt 2) []).
Proof.
  intro n. split; [|split; [acc_tac|split]].
  - apply (C27_vocabulary_order_partial tview ex_strx ex_env tview_wf); [apply Permutation_rev|apply ex_env_blind| |].
    + exact validator_vocabulary_positive.
    + exact validator_vocabulary_items.
  - intro H. apply (C27_reordering_never_flips tview ex_strx ex_env tview_wf all_keywords _ n (VInt 3) [] (Permutation_rev _) ex_env_blind); [acc_tac|exact H].
  - apply (C27_settled_order_partial tview ex_strx ex_env tview_wf all_keywords _ n (VInt 2) [] (Permutation_rev _) ex_env_blind); right; rej_tac.
Qed.

(** ** C31 fails: under [not], member order decides between acceptance and [TypeError] *)
Theorem C31_member_order_refuted :
  exists n v v', same_value v v' /\ forall strx E,
    Accepts tview strx E all_keywords n v [] /\ Outcome tview strx E all_keywords n v' [] (Raise EType).
Proof.
  exists (jobj [("not", jobj [("properties", jobj [("a", t_string); ("b", jobj [("minLength", jnum 1)])])])]%string),
    (jdict [("a", VInt 1); ("b", VInt 1)]%string), (jdict [("b", VInt 1); ("a", VInt 1)]%string).
  split.
  - eapply sv_dict with (d1 := [(u "b", VInt 1); (u "a", VInt 1)]).
    + simpl. repeat constructor; simpl; intuition discriminate.
    + constructor.
    + repeat constructor.
  - intros strx E. split; [acc_tac|outc_tac].
Qed.
Lemma ex_swap : same_value (jdict [("a", VInt 1); ("b", VInt 2)]%string) (jdict [("b", VInt 2); ("a", VInt 1)]%string).
Proof.
  eapply sv_dict with (d1 := [(u "b", VInt 2); (u "a", VInt 1)]).
  - simpl. repeat constructor; simpl; intuition discriminate.
  - constructor.
  - repeat constructor.
Qed.
Example C31_ex : let n := jobj [("properties", jobj [("b", jobj [("minimum", jnum 2)]); ("a", t_number)])]%string in
  (Accepts tview ex_strx ex_env validator_vocabulary n (jdict [("a", VInt 1); ("b", VInt 2)]%string) [] <->
   Accepts tview ex_strx ex_env validator_vocabulary n (jdict [("b", VInt 2); ("a", VInt 1)]%string) []) /\
  (acc n (jdict [("a", VInt 1); ("b", VInt 2)]%string) [] <-> acc n (jdict [("b", VInt 2); ("a", VInt 1)]%string) []) /\
  ~ rejs n (jdict [("b", VInt 2); ("a", VInt 1)]%string) [].
Proof.
  intro n. split; [|split].
  - apply (C31_member_order_partial tview ex_strx ex_env tview_wf _ n _ _ [] ex_env_blind ex_swap).
    + exact validator_vocabulary_positive.
    + exact validator_vocabulary_items.
  - apply (C31_settled_partial tview ex_strx ex_env tview_wf _ n _ _ [] ex_env_blind ex_swap); left; acc_tac.
  - intro Hr. apply (C31_member_order_never_flips tview ex_strx ex_env tview_wf all_keywords n _ _ [] ex_env_blind ex_swap); [acc_tac|exact Hr].
Qed.

Print Assumptions C14_dependent_schemas.
Print Assumptions C15_members.
Print Assumptions C15_first_fault.
Print Assumptions C16_property_names.
Print Assumptions C17_allOf.
Print Assumptions C18_anyOf.
Print Assumptions C19_oneOf.
Print Assumptions C20_not.
Print Assumptions C21_if_then_else.
Print Assumptions C22_items.
Print Assumptions C22_tuple_items.
Print Assumptions C23_arrays_terminate_partial.
Print Assumptions C23_short_array_diverges.
Print Assumptions C24_contains_exact.
Print Assumptions C25_unique.
Print Assumptions C26_conjunction.
Print Assumptions C26_unrecognised.
Print Assumptions C27_reordering_never_flips.
Print Assumptions C27_vocabulary_order_partial.
Print Assumptions C31_member_order_never_flips.
Print Assumptions C31_member_order_partial.
Print Assumptions C32_one_outcome.
