(** Refutations of C33-C36 and examples that meet the hypotheses of
    [PropsErrors] and [PropsTotal]. *)
From Verif Require Import PyBase PyBaseFacts PyVal Errors Validators Keywords Spec LeafFacts Mono RunFacts KeywordFacts Master Claims ScalarFacts PropsScalar PropsComposite ExBase PropsErrors PropsTotal.
From Coq Require Import QArith.
Local Open Scope Z_scope.
Local Notation outc := (Outcome tview ex_strx ex_env all_keywords).
Local Ltac outc_tac := split; [discriminate|exists 8%nat; vm_compute; reflexivity].

Lemma ex_quiet : quiet_env ex_env.
Proof.
  split; [|discriminate]. intros f test v e. unfold ex_env, fmt. destruct (str_eqb f (u "even")); [|discriminate].
  intros [= <-]. destruct v; discriminate.
Qed.
Lemma tview_quiet n e : tview n <> Raise (EValid e).
Proof. destruct n; discriminate. Qed.

(** ** C33 *)
(** the index of a repeated item is glued to the path: no item is at "a2" *)
Theorem C33_unique_path_refuted :
  exists n v e, (forall strx E, Outcome tview strx E all_keywords n v [] (Raise (EValid e))) /\
    forall p y, leads v p y -> ve_path e <> dotted p.
Proof.
  exists (jobj [("properties", jobj [("a", jobj [("uniqueItems", TBool true)])])]%string),
    (jdict [("a", VList [VInt 1; VInt 2; VInt 1])]%string), (VErr KUnique (u "a2")).
  split; [intros; outc_tac|]. intros p y H. inversion H as [|d k x q z Hin Hl|]; subst; [discriminate|].
  destruct Hin as [[= <- <-]|[]]. inversion Hl as [| |l i x q' z Hi Hl']; subst; [discriminate|].
  change (dotted (u "a" :: nat_str i :: q')) with (u "a" ++ u "." ++ dotted (nat_str i :: q')). discriminate.
Qed.
(** [items] on something that is no array: the path is empty *)
Theorem C33_array_path_refuted :
  exists n v e, (forall strx E, Outcome tview strx E all_keywords n v [] (Raise (EValid e))) /\
    ve_path e = [] /\ has_type v (u "object") /\
    (forall strx E c, Outcome tview strx E all_keywords
       (jobj [("type", TArr [jstr "object"])]%string) v c (Ok tt)).
Proof.
  exists (jobj [("properties", jobj [("a", jobj [("items", TBool true)])])]%string),
    (jdict [("a", VInt 1)]%string), (VErr (KType [u "array"]) []).
  split; [intros; outc_tac|]. split; [reflexivity|]. split; [reflexivity|]. intros; outc_tac.
Qed.
Example C33_ex :
  let n := jobj [("properties", jobj [("a", jobj [("additionalProperties", jobj [("type", jstr "string")])])])]%string in
  let v := jdict [("a", jdict [("b", VStr (u "x")); ("c", VInt 1)])]%string in
  let e := VErr (KType [u "string"]) (u "a.c") in
  outc n v [] (Raise (EValid e)) /\ located ex_env all_keywords [] v e /\
  exists p y, leads (jdict [("a", VInt 1)]%string) p y /\ u "a" = dotted p /\ ~ has_type y (u "string").
Proof.
  intros n v e. assert (Ho : outc n v [] (Raise (EValid e))) by outc_tac. split; [exact Ho|]. split.
  - exact (C33_every_path_partial tview ex_strx ex_env all_keywords ex_quiet tview_quiet n v [] e Ho).
  - destruct (C33_error_path_partial tview ex_strx ex_env validator_vocabulary ex_quiet tview_quiet
      (jobj [("properties", jobj [("a", jobj [("type", jstr "string")])])]%string)
      (jdict [("a", VInt 1)]%string) [] (VErr (KType [u "string"]) (u "a"))) as (p & y & Hp & Hd & Hb).
    1-4: cbn; intuition discriminate.
    + outc_tac.
    + exists p, y. split; [exact Hp|]. split; [exact Hd|]. intro H. apply Hb. exists (u "string"). split; [left; reflexivity|exact H].
Qed.

(** ** C34: a brace in a member name turns the rejection into another exception *)
Definition braced (name : string) : jt := jobj [("properties", jobj [(name, jobj [("type", jstr "string")])])]%string.
Theorem C34_validation_error_refuted :
  exists n1 v1 n2 v2 n3 v3, forall strx E,
    Outcome tview strx E all_keywords n1 v1 [] (Raise (EKey (u "x"))) /\
    Outcome tview strx E all_keywords n2 v2 [] (Raise EValue) /\
    Outcome tview strx E all_keywords n3 v3 [] (Raise EIndex).
Proof.
  exists (braced "{x}"), (jdict [("{x}", VInt 1)]%string), (braced "}"), (jdict [("}", VInt 1)]%string),
    (braced "{}"), (jdict [("{}", VInt 1)]%string).
  intros strx E. split; [outc_tac|split; outc_tac].
Qed.

(** ** C35: keywords for another type do not ignore the instance *)
Theorem C35_total_refuted :
  exists n v, (forall strx E, Outcome tview strx E all_keywords n v [] (Raise EType)) /\ has_type v (u "integer").
Proof.
  exists (jobj [("minLength", jnum 1)]%string), (VInt 5). split; [intros; outc_tac|left; reflexivity].
Qed.

(** a recursive schema graph: a named linked list
    {"type": "object", "required": ["name"], "anyOf": [{"type": "object", "minProperties": 1}],
     "properties": {"next": <this schema>, "name": {"type": "string", "minLength": 1}}} *)
Definition gval (n : nat) : nval nat :=
  match n with
  | 0 => NObj [(u "type", 1); (u "properties", 2); (u "required", 4); (u "anyOf", 6)]
  | 1 => NStr (u "object")
  | 2 => NObj [(u "next", 0); (u "name", 3)]
  | 3 => NObj [(u "type", 5); (u "minLength", 8)]
  | 4 => NArr [9]
  | 5 => NStr (u "string")
  | 6 => NArr [7]
  | 7 => NObj [(u "type", 1); (u "minProperties", 8)]
  | 8 => NNum (Dec 1 0)
  | 9 => NStr (u "name")
  | _ => NNull
  end%nat.
Definition gview (n : nat) : res (nview nat) := Ok (NView (gval n) false).
Definition gschema (n : nat) : Prop := (n = 0 \/ n = 3 \/ n = 7)%nat.
Definition grank (n : nat) : nat := match n with O => 1 | _ => 0 end.
Definition type_first_keywords : list akw := KwType :: all_keywords.
Lemma gview_wf : wf_view gview.
Proof.
  intros n w m [= <-] Hm. cbn [nv_val] in Hm.
  do 10 (destruct n as [|n]; [cbn in Hm; try discriminate Hm; injection Hm as <-; repeat constructor; cbn; intuition discriminate|]).
  discriminate.
Qed.
Lemma gtyped : well_typed gview ex_env type_first_keywords gschema grank.
Proof.
  intros n [->|[->| ->]]; right; eexists; (split; [eexists; split; [reflexivity|reflexivity]|]);
    intros k m _ Hm;
    assert (Hobj : only_types gview [(u "type", 1%nat)] [u "object"])
      by (exists 1%nat; split; [reflexivity|left; exists (u "object"); split; [reflexivity|left; reflexivity]]).
  - destruct k; try discriminate Hm; injection Hm as <-; cbn [well_used].
    + exists [7%nat]. split; [reflexivity|]. split; [discriminate|]. intros s [<-|[]]. split; [right; right; reflexivity|cbn; lia].
    + eexists. split; [eexists; split; [reflexivity|reflexivity]|].
      intros key s [[= <- <-]|[[= <- <-]|[]]]; [left; reflexivity|right; left; reflexivity].
    + split; [|exists [9%nat]; reflexivity]. exists 1%nat. split; [reflexivity|]. left. exists (u "object"). split; [reflexivity|cbn; tauto].
    + exists 1%nat. split; [reflexivity|]. left. exists (u "object"). split; [reflexivity|cbn; tauto].
  - destruct k; try discriminate Hm; injection Hm as <-; cbn [well_used].
    + split; [exists (Dec 1 0); reflexivity|]. exists 5%nat. split; [reflexivity|]. left. exists (u "string"). split; [reflexivity|cbn; tauto].
    + exists 5%nat. split; [reflexivity|]. left. exists (u "string"). split; [reflexivity|cbn; tauto].
  - destruct k; try discriminate Hm; injection Hm as <-; cbn [well_used].
    + split; [exists (Dec 1 0); reflexivity|]. exists 1%nat. split; [reflexivity|]. left. exists (u "object"). split; [reflexivity|cbn; tauto].
    + exists 1%nat. split; [reflexivity|]. left. exists (u "object"). split; [reflexivity|cbn; tauto].
Qed.
Lemma gfit v : quotients_fit gview gschema v.
Proof.
  intros p y x n items m d _ _ [->|[->| ->]] [w [[= <-] Hm]] Hd _; cbn in Hm; injection Hm as <-; discriminate Hd.
Qed.
Lemma gflat v : arrays_flat gview gschema v.
Proof.
  intros p l x n items m _ _ [->|[->| ->]] [w [[= <-] Hm]] Hd _; cbn in Hm; injection Hm as <-; discriminate Hd.
Qed.
(** so every brace-free instance, however deep, is accepted or rejected by it *)
Example C35_ex strx v : plain_names v ->
  (Accepts gview strx ex_env type_first_keywords 0%nat v [] \/ Rejects gview strx ex_env type_first_keywords 0%nat v []) /\
  Accepts gview strx ex_env type_first_keywords 0%nat (jdict [("next", jdict [("name", VStr (u "b"))]); ("name", VStr (u "a"))]%string) [] /\
  Rejects gview strx ex_env type_first_keywords 0%nat (jdict [("next", jdict [("name", VInt 1)]); ("name", VStr (u "a"))]%string) [].
Proof.
  intro Hv. split.
  - apply (C35_total_partial gview strx ex_env type_first_keywords gview_wf gschema grank gtyped (ex_intro _ _ eq_refl) 0%nat v []).
    + left; reflexivity.
    + exact Hv.
    + apply gfit.
    + apply gflat.
    + constructor.
  - split; [exists 8%nat; vm_compute; reflexivity|exists 8%nat; eexists; vm_compute; reflexivity].
Qed.
Example C34_ex strx v r : plain_names v -> Outcome gview strx ex_env type_first_keywords 0%nat v [] r ->
  r = Ok tt \/ exists e, r = Raise (EValid e).
Proof.
  intros Hv Ho.
  apply (C34_validation_error_partial gview strx ex_env type_first_keywords gview_wf gschema grank gtyped (ex_intro _ _ eq_refl) 0%nat v [] r).
  - left; reflexivity.
  - exact Hv.
  - apply gfit.
  - apply gflat.
  - constructor.
  - exact Ho.
Qed.

(** ** C36: showing the rejected text "}" is itself an error *)
Theorem C36_rendering_refuted :
  exists n s e, (forall strx E, Outcome tview strx E all_keywords n (VDict [(u "k", VStr s)]) [] (Raise (EValid e))) /\
    str_error e s = Raise EValue.
Proof.
  exists (jobj [("additionalProperties", TBool false)]%string), (u "}"), (VErr KFail (u "k")).
  split; [intros; outc_tac|reflexivity].
Qed.
(** and so is an unexpected member whose name has a brace, under [not] too *)
Theorem C36_path_refuted :
  exists n v e, (forall strx E, Outcome tview strx E all_keywords n v [] (Raise (EValid e))) /\
    forall shown, str_error e shown = Raise EValue.
Proof.
  exists (jobj [("additionalProperties", jobj [("not", jobj [])])]%string), (jdict [("}", VInt 1)]%string), (VErr KNot (u "}")).
  split; [intros; outc_tac|reflexivity].
Qed.
Example C36_ex : str_error (VErr (KType [u "string"]) (u "a")) [] = Ok tt /\
  str_error (VErr KFail (u "a.b")) (u "12") = Ok tt.
Proof.
  split.
  - apply (C36_rendering_partial tview ex_strx ex_env all_keywords ex_quiet tview_quiet
      (jobj [("properties", jobj [("a", jobj [("type", jstr "string")])])]%string) (jdict [("a", VInt 1)]%string) []);
      [outc_tac|discriminate|discriminate].
  - apply C36_plain_partial; apply plain_text_b; reflexivity.
Qed.

Print Assumptions C33_every_path_partial.
Print Assumptions C33_error_path_partial.
Print Assumptions C33_unique_path_refuted.
Print Assumptions C34_validation_error_partial.
Print Assumptions C35_total_partial.
Print Assumptions C36_rendering_partial.
Print Assumptions C36_plain_partial.
