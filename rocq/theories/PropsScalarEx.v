(** Refutations, examples that meet the hypotheses of [PropsScalar], and the
    assumptions of its theorems. *)
From Verif Require Import PyBase PyBaseFacts PyVal Errors Validators Keywords Spec LeafFacts Mono RunFacts KeywordFacts Master Claims ScalarFacts PropsScalar ExBase.
From Coq Require Import QArith Qabs ZifyBool.
Local Open Scope Z_scope.

(** ** C07 fails: the float 0.1 is rejected by [{"const": 0.1}], and also by
    [{"maximum": 0.1}], since it is compared exactly with the Decimal 0.1. *)
Theorem C07_number_accepts_itself_refuted :
  exists v d, carries v d /\
    (forall strx E, ~ Accepts tview strx E all_keywords (jobj [("const", TNum d)]%string) v []) /\
    (forall strx E, RejectsWith tview strx E all_keywords (jobj [("const", TNum d)]%string) v [] KConst []) /\
    (forall strx E, RejectsWith tview strx E validator_vocabulary (jobj [("maximum", TNum d)]%string) v [] (KMaximum d) []) /\
    (forall strx E, RejectsWith tview strx E validator_vocabulary (jobj [("enum", TArr [TNum d])]%string) v [] KEnum []).
Proof.
  exists (VFloat f01), (Dec 1 (-1)). split; [reflexivity|].
  assert (H : forall strx E, RejectsWith tview strx E all_keywords (jobj [("const", TNum (Dec 1 (-1)))]%string) (VFloat f01) [] KConst []).
  { intros strx E. split; [discriminate|]. exists 1%nat. vm_compute. reflexivity. }
  split; [|split; [exact H|split]].
  - intros strx E Ha. apply (accepts_not_rejects tview strx E all_keywords _ _ _ Ha).
    exact (outcome_rejects tview strx E all_keywords _ _ _ _ (H strx E)).
  - intros strx E. split; [discriminate|]. exists 1%nat. vm_compute. reflexivity.
  - intros strx E. split; [discriminate|]. exists 1%nat. vm_compute. reflexivity.
Qed.

(** ** C09 fails: [{"maximum": 0, "exclusiveMaximum": 1}] rejects 0. *)
Theorem C09_numeric_exclusive_refuted :
  exists M X z, (inject_Z z <= dec_q M)%Q /\ (inject_Z z < dec_q X)%Q /\
    forall strx E,
      RejectsWith tview strx E validator_vocabulary
        (jobj [("maximum", TNum M); ("exclusiveMaximum", TNum X)]%string) (VInt z) [] (KMaximum M) [].
Proof.
  exists (Dec 0 0), (Dec 1 0), 0. split; [discriminate|]. split; [reflexivity|].
  intros strx E. split; [discriminate|]. exists 1%nat. vm_compute. reflexivity.
Qed.

(** ** Examples *)
Example C04_ex : let n := jobj [("title", jstr "t"); ("type", TArr [jstr "string"; jstr "number"])]%string in
  Accepts tview ex_strx ex_env validator_vocabulary n (VInt 3) [u "a"] /\
  RejectsWith tview ex_strx ex_env validator_vocabulary n (VBool true) [u "a"; u "0"]
    (KType [u "string"; u "number"]) [u "a"; u "0"].
Proof.
  intro n.
  assert (Hl : lone validator_vocabulary (members n) KwType (TArr [jstr "string"; jstr "number"])) by lone_tac.
  assert (Ht : type_operand tview (TArr [jstr "string"; jstr "number"]) [u "string"; u "number"]).
  { right. eexists. split; [reflexivity|]. repeat constructor. }
  assert (Hi : incl [u "string"; u "number"] type_names).
  { intros x [<-|[<-|[]]]; [left; reflexivity|right; right; left; reflexivity]. }
  split.
  - apply (C04_type tview ex_strx ex_env _ tview_wf n _ _ _ (VInt 3) [u "a"] (obj_members' _) Hl Ht Hi).
    exists (u "number"). split; [right; left; reflexivity|right; reflexivity].
  - apply (C04_type tview ex_strx ex_env _ tview_wf n _ _ _ (VBool true) _ (obj_members' _) Hl Ht Hi).
    + intros (t & [<-|[<-|[]]] & H); vm_compute in H; discriminate.
    + plain_tac.
Qed.
Example C05_ex : let n := jobj [("enum", TArr [jnum 1; jstr "x"; TNull])]%string in
  Accepts tview ex_strx ex_env validator_vocabulary n VNone [] /\
  RejectsWith tview ex_strx ex_env validator_vocabulary n (VBool true) [] KEnum [].
Proof.
  intro n.
  assert (Hl : lone validator_vocabulary (members n) KwEnum (TArr [jnum 1; jstr "x"; TNull])) by lone_tac.
  assert (Hf : Forall2 (val_at tview) [jnum 1; jstr "x"; TNull] [NNum (Dec 1 0); NStr (u "x"); NNull]) by (repeat constructor).
  assert (Hs : Forall (@scalar jt) [NNum (Dec 1 0); NStr (u "x"); NNull]) by (repeat constructor).
  split.
  - apply (C05_enum tview ex_strx ex_env _ tview_wf n _ _ _ _ VNone [] (obj_members' _) Hl eq_refl Hf Hs).
    exists NNull. split; [right; right; left; reflexivity|exact I].
  - apply (C05_enum tview ex_strx ex_env _ tview_wf n _ _ _ _ (VBool true) [] (obj_members' _) Hl eq_refl Hf Hs).
    + intros (x & [<-|[<-|[<-|[]]]] & []).
    + plain_tac.
Qed.
Example C06_ex : let n := jobj [("const", TBool false)]%string in
  Accepts tview ex_strx ex_env all_keywords n (VBool false) [] /\
  RejectsWith tview ex_strx ex_env all_keywords n (VInt 0) [u "k"] KConst [u "k"].
Proof.
  intro n. assert (Hl : lone all_keywords (members n) KwConst (TBool false)) by lone_tac. split.
  - apply (C06_const tview ex_strx ex_env _ tview_wf n _ _ (NBool false) (VBool false) [] (obj_members' _) Hl eq_refl I). reflexivity.
  - apply (C06_const tview ex_strx ex_env _ tview_wf n _ _ (NBool false) (VInt 0) _ (obj_members' _) Hl eq_refl I).
    + intros [].
    + plain_tac.
Qed.
Example C07_ex : Accepts tview ex_strx ex_env all_keywords (jobj [("maximum", TNum (Dec 15 (-1)))]%string)
  (VFloat (PFloat 3 (-1) (Dec 15 (-1)))) [].
Proof.
  apply (C07_number_accepts_itself_partial tview ex_strx ex_env _ tview_wf _ _ KwMaximum (TNum (Dec 15 (-1))) (Dec 15 (-1)) _ _
           (obj_members' _)).
  - lone_tac.
  - reflexivity.
  - eexists. split; reflexivity.
  - left. split; [right; right; reflexivity|reflexivity].
  - discriminate.
  - reflexivity.
Qed.
Example C08_ex : let n := jobj [("exclusiveMaximum", TBool true); ("maximum", TNum (Dec 25 (-1)))]%string in
  Accepts tview ex_strx ex_env validator_vocabulary n (VInt 2) [] /\
  RejectsWith tview ex_strx ex_env validator_vocabulary n (VDec (Dec 250 (-2))) [] (KMaximum (Dec 25 (-1))) [].
Proof.
  intro n. split.
  - apply (C08_maximum tview ex_strx ex_env validator_vocabulary tview_wf n (members n) (TNum (Dec 25 (-1))) (Dec 25 (-1)) true (VInt 2) (inject_Z 2) []);
      try reflexivity; [apply obj_members'|simpl; tauto|apply only_b_ok; vm_compute; reflexivity|].
    right. exists (TBool true). split; reflexivity.
  - apply (C08_maximum tview ex_strx ex_env validator_vocabulary tview_wf n (members n) (TNum (Dec 25 (-1))) (Dec 25 (-1)) true (VDec (Dec 250 (-2))) (dec_q (Dec 250 (-2))) []);
      try reflexivity; [apply obj_members'|simpl; tauto|apply only_b_ok; vm_compute; reflexivity| |discriminate|plain_tac].
    right. exists (TBool true). split; reflexivity.
Qed.
Example C08_exclusive_ex : Accepts tview ex_strx ex_env validator_vocabulary (jobj [("exclusiveMinimum", jnum 3)]%string) (VInt 4) [].
Proof.
  apply (C08_exclusive_minimum tview ex_strx ex_env _ tview_wf _ _ (jnum 3) (Dec 3 0) (VInt 4) (inject_Z 4) [] (obj_members' _));
    [lone_tac|reflexivity|reflexivity|reflexivity].
Qed.
Example C09_ex : let n := jobj [("minimum", jnum 3); ("exclusiveMinimum", jnum 2)]%string in
  Accepts tview ex_strx ex_env validator_vocabulary n (VInt 3) [].
Proof.
  intro n.
  apply (C09_both_bounds_partial tview ex_strx ex_env validator_vocabulary tview_wf n (members n) (jnum 3) (jnum 2)
           (Dec 3 0) (Dec 2 0) (VInt 3) (inject_Z 3) [] KwMinimum KwExclusiveMinimum);
    try reflexivity; try (simpl; tauto); [apply obj_members'|apply only_b_ok; vm_compute; reflexivity|discriminate|].
  split; [discriminate|reflexivity].
Qed.
Example C10_ex : let n := jobj [("multipleOf", TNum (Dec 1 (-2)))]%string in
  Accepts tview ex_strx ex_env validator_vocabulary n (VFloat f01) [] /\
  RejectsWith tview ex_strx ex_env validator_vocabulary n (VDec (Dec 5 (-3))) [] (KMultipleOf (Dec 1 (-2))) [] /\
  Outcome tview ex_strx ex_env validator_vocabulary n (VInt (10 ^ 26)) [] (Raise EDecimal).
Proof.
  intro n.
  assert (Hl : lone validator_vocabulary (members n) KwMultipleOf (TNum (Dec 1 (-2)))) by lone_tac.
  pose proof (fun v x => C10_multiple_of tview ex_strx ex_env _ tview_wf n _ _ (Dec 1 (-2)) v x [] (obj_members' _) Hl eq_refl) as H.
  split; [|split].
  - apply (H (VFloat f01) (Dec 1 (-1)) eq_refl); [discriminate|reflexivity|]. exists 10. reflexivity.
  - apply (H (VDec (Dec 5 (-3))) (Dec 5 (-3)) eq_refl); [discriminate|reflexivity| |plain_tac].
    intros [z Hz]. unfold Qeq in Hz. simpl in Hz. lia.
  - apply (H (VInt (10 ^ 26)) (Dec (10 ^ 26) 0) eq_refl). right. apply Qle_bool_iff. vm_compute. reflexivity.
Qed.
Example C11_ex : let n := jobj [("maxLength", TNum (Dec 29 (-1)))]%string in
  Accepts tview ex_strx ex_env validator_vocabulary n (VStr (u "ab")) [] /\
  RejectsWith tview ex_strx ex_env validator_vocabulary n (VStr (u "abc")) [] (KMaxLength 2) [].
Proof.
  intro n.
  assert (Hl : lone validator_vocabulary (members n) KwMaxLength (TNum (Dec 29 (-1)))) by lone_tac.
  assert (Hz : int_part (dec_q (Dec 29 (-1))) 2).
  { split; intro H; [split; [discriminate|reflexivity]|exfalso; apply H; reflexivity]. }
  split.
  - apply (C11_counts tview ex_strx ex_env _ tview_wf n _ _ _ _ 2 2 (VStr (u "ab")) [] (obj_members' _) Hl eq_refl I Hz eq_refl).
    simpl. lia.
  - apply (C11_counts tview ex_strx ex_env _ tview_wf n _ _ _ _ 2 3 (VStr (u "abc")) [] (obj_members' _) Hl eq_refl I Hz eq_refl).
    + simpl. lia.
    + plain_tac.
Qed.
Example C12_ex : let n := jobj [("required", TArr [jstr "a"; jstr "b"; jstr "c"])]%string in
  RejectsWith tview ex_strx ex_env all_keywords n (jdict [("a", VNone)]%string) [u "x"] (KRequired (u "b")) [u "x"].
Proof.
  intro n.
  assert (Hl : lone all_keywords (members n) KwRequired (TArr [jstr "a"; jstr "b"; jstr "c"])) by lone_tac.
  assert (Ht : names_at tview (TArr [jstr "a"; jstr "b"; jstr "c"]) [u "a"; u "b"; u "c"]).
  { eexists. split; [reflexivity|]. repeat constructor. }
  apply (proj2 (C12_required tview ex_strx ex_env _ tview_wf n _ _ _ _ [u "x"] (obj_members' _) Hl Ht) [u "a"] (u "b") [u "c"] eq_refl).
  - intros x [<-|[]]. left; reflexivity.
  - intros [H|[]]. discriminate H.
  - plain_tac.
Qed.
Example C13_ex : let n := jobj [("dependentRequired", jobj [("a", TArr [jstr "b"])])]%string in
  Accepts tview ex_strx ex_env all_keywords n (jdict [("c", VNone)]%string) [] /\
  ~ Accepts tview ex_strx ex_env all_keywords n (jdict [("a", VNone)]%string) [].
Proof.
  intro n.
  assert (Hl : lone all_keywords (members n) KwDependentRequired (jobj [("a", TArr [jstr "b"])]%string)) by lone_tac.
  assert (Ht : depends_at tview (jobj [("a", TArr [jstr "b"])]%string) [(u "a", [u "b"])]).
  { eexists. split; [reflexivity|]. constructor; [|constructor]. split; [reflexivity|].
    eexists. split; [reflexivity|]. repeat constructor. }
  split.
  - apply (C13_dependent_required tview ex_strx ex_env _ tview_wf n _ _ _ _ [] (obj_members' _) Hl Ht).
    intros d Hd key names name. injection Hd as <-. intros [H|[]]. injection H as <- <-. intros [H|[]]. discriminate H.
  - intro H. pose proof (proj1 (proj1 (C13_dependent_required tview ex_strx ex_env _ tview_wf n _ _ _ _ [] (obj_members' _) Hl Ht)) H) as H'.
    clear H. rename H' into H. specialize (H _ eq_refl (u "a") [u "b"] (u "b") (or_introl eq_refl) (or_introl eq_refl) (or_introl eq_refl)).
    destruct H as [H|[]]. discriminate H.
Qed.
Example C28_ex v c : Outcome tview ex_strx ex_env validator_vocabulary
  (jobj [("type", jstr "string"); ("pattern", jnum 3)]%string) v c (Raise ESchemaParse).
Proof.
  apply (C28_malformed_operand tview ex_strx ex_env validator_vocabulary _ _
    [KwType; KwEnum; KwExclusiveMaximum; KwExclusiveMinimum; KwFormat; KwMaxLength; KwMaximum; KwMinLength; KwMinimum; KwMultipleOf]
    KwPattern [KwProperties; KwPatternProperties] (jnum 3) (NView (NNum (Dec 3 0)) false) v c eq_refl (obj_members' _));
    try reflexivity. eexists. vm_compute. reflexivity.
Qed.

Print Assumptions C04_type.
Print Assumptions C05_enum.
Print Assumptions C06_const.
Print Assumptions C07_number_accepts_itself_partial.
Print Assumptions C07_exact_carriers.
Print Assumptions C07_float_const.
Print Assumptions C07_number_accepts_itself_refuted.
Print Assumptions C08_maximum.
Print Assumptions C08_minimum.
Print Assumptions C08_exclusive_maximum.
Print Assumptions C08_exclusive_minimum.
Print Assumptions C09_both_maxima.
Print Assumptions C09_both_minima.
Print Assumptions C09_both_bounds_partial.
Print Assumptions C09_numeric_exclusive_refuted.
Print Assumptions C10_multiple_of.
Print Assumptions C11_counts.
Print Assumptions C12_required.
Print Assumptions C13_dependent_required.
Print Assumptions C28_malformed_operand.
