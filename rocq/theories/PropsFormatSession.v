(** C123: a format that is registered takes effect at once. *)
From Verif Require Import PyBase PyBaseFacts PyVal Errors Validators Keywords Memory KeywordFacts Master Claims ScalarFacts PropsScalar ExBase PropsMemory FormatSession.
Local Open Scope nat_scope.
Local Notation length := List.length (only parsing).

(** every format known to [E] is known to [E'], by whatever test; nothing else differs
    in what building a validator asks *)
Definition more_formats (E E' : env) : Prop := re_ok E' = re_ok E /\ forall n, fmt E n <> None -> fmt E' n <> None.

Section Formats.
  Context {node : Type} (view : node -> res (nview node)) (strx : node -> pystr).
  Variable voc : list akw.
  Hypothesis Hwf : wf_view view.

  Lemma more_apply E E' k items (d d' : list (pystr * vobj node node)) : more_formats E E' -> apply view strx E k items d = Ok d' -> apply view strx E' k items d = Ok d'.
  Proof.
    intros [Hr Hf] H. unfold apply in *. destruct (opnd view items (kw_key k)) as [w| |]; try discriminate H. cbn [bind] in *. destruct (opnd_node items (kw_key k)) as [n| |]; try discriminate H. cbn [bind] in *.
    destruct k; try exact H.
    - destruct (as_str w) as [f| |]; try discriminate H. cbn [bind] in *. specialize (Hf f). destruct (fmt E f); [|discriminate]. destruct (fmt E' f); [exact H|exfalso; apply Hf; [discriminate|reflexivity]].
    - rewrite Hr. exact H.
  Qed.
  Lemma more_step E E' w k (d d' : list (pystr * vobj node node)) : more_formats E E' -> step_kw view strx E w k d = Ok d' -> step_kw view strx E' w k d = Ok d'.
  Proof.
    intros M H. unfold step_kw in *. destruct (can_apply view w (kw_key k)) as [b| |]; try discriminate H. cbn [bind] in *. destruct b; [|exact H]. destruct (nv_val w); try discriminate H. eapply more_apply; eassumption.
  Qed.
  Lemma more_run E E' w l : more_formats E E' -> forall d d', run_kws view strx E w l d = Ok d' -> run_kws view strx E' w l d = Ok d'.
  Proof.
    intro M. induction l as [|k l IH]; intros d d' H; cbn [run_kws] in *; [exact H|]. destruct (step_kw view strx E w k d) as [d1| |] eqn:S; try discriminate H. rewrite (more_step E E' w k d d1 M S). cbn [bind] in *. apply IH, H.
  Qed.
  (** what was built, and what was begun and given up, with the old formats serves with
      the new ones *)
  Lemma more_good E E' h : more_formats E E' -> good view strx E voc h -> good view strx E' voc h.
  Proof.
    intros M G l Hl. pose proof (G l Hl) as Gl. unfold good_cell in *. destruct (c_state (cells h l)) as [t|t].
    - destruct Gl as [->|(w & l1 & l2 & Hw & Nb & Ev & Er)]; [left; reflexivity|]. right. exists w, l1, l2. repeat (split; [assumption|]). eapply more_run; eassumption.
    - destruct Gl as (t0 & Ec & T). exists t0. split; [|exact T]. unfold compile in *. destruct (view (c_node (cells h l))) as [w| |]; try discriminate Ec. cbn [bind] in *. destruct (nv_val w); try exact Ec; eapply more_run; eassumption.
  Qed.
  Lemma registered_more E name test : more_formats E (with_format E name test).
  Proof. split; [reflexivity|]. intros n H. cbn [fmt with_format]. destruct (str_eqb n name); [discriminate|exact H]. Qed.

  (** ** C123 *)
  (** the outcome is that of the first call on a schema that was never used, with the
      formats as they are at the time of the call *)
  Definition current (root : node) (o : foutcome) : Prop :=
    fo_result o = validate view strx (fo_env o) voc (fo_fuel o) root (fo_value o) [] /\
    fo_result o = snd (validateM view strx (fo_env o) voc (fo_fuel o) 0 (fo_value o) [] (fresh root)).
  Theorem C123_current root E steps log E' h' : fsession view strx voc steps E (fresh root) = (log, E', h') -> Forall (current root) log.
  Proof.
    assert (Hs : stands (fresh root) 0%nat root) by (split; simpl; [lia|reflexivity]). pose proof (fresh_good view strx E voc root) as G. revert Hs G. generalize (fresh root) at 1 2 3. revert E log.
    induction steps as [|[fuel v|name test] steps IH]; intros E log h Hs G H; cbn [fsession] in H.
    - injection H as <- <- <-. constructor.
    - destruct (validateM_sim view strx E voc Hwf fuel 0%nat root v [] h Hs h G (ext_refl h)) as (h1 & E0 & G1 & X1). rewrite E0 in H. destruct (fsession view strx voc steps E h1) as [[log1 E3] h3] eqn:E2. injection H as <- <- <-.
      constructor; [|exact (IH E _ h1 (stands_ext _ _ _ _ X1 Hs) G1 E2)]. split; [reflexivity|]. cbn [fo_result fo_env fo_fuel fo_value].
      assert (Hf : stands (fresh root) 0%nat root) by (split; simpl; [lia|reflexivity]).
      destruct (validateM_sim view strx E voc Hwf fuel 0%nat root v [] (fresh root) Hf (fresh root) (fresh_good view strx E voc root) (ext_refl _)) as (h2 & Ef & _). rewrite Ef. reflexivity.
    - exact (IH _ _ h Hs (more_good _ _ _ (registered_more E name test) G) H).
  Qed.
  (** which formats a call has: the test registered last under the name, or the one
      there was at first *)
  Inductive last_registered (name : pystr) : list fstep -> option (pv -> res bool) -> Prop :=
  | lr_none : last_registered name [] None
  | lr_call steps fuel v o : last_registered name steps o -> last_registered name (steps ++ [FValidate fuel v]) o
  | lr_this steps test o : last_registered name steps o -> last_registered name (steps ++ [FRegister name test]) (Some test)
  | lr_other steps n test o : n <> name -> last_registered name steps o -> last_registered name (steps ++ [FRegister n test]) o.
  Lemma session_app a b E h : fsession view strx voc (a ++ b) E h =
    (let '(log1, E1, h1) := fsession view strx voc a E h in let '(log2, E2, h2) := fsession view strx voc b E1 h1 in (log1 ++ log2, E2, h2)).
  Proof.
    revert E h. induction a as [|[fuel v|n t] a IH]; intros E h; cbn [app fsession].
    - destruct (fsession view strx voc b E h) as [[? ?] ?]. reflexivity.
    - destruct (validateM view strx E voc fuel 0 v [] h) as [h1 r]. rewrite IH. destruct (fsession view strx voc a E h1) as [[? E1] h2]. destruct (fsession view strx voc b E1 h2) as [[? ?] ?]. reflexivity.
    - apply IH.
  Qed.
  Theorem C123_formats E steps log E' h h' name o : fsession view strx voc steps E h = (log, E', h') -> last_registered name steps o ->
    fmt E' name = match o with Some test => Some test | None => fmt E name end.
  Proof.
    intros H L. revert log E' h' H. induction L as [|steps fuel v o _ IH|steps test o _ IH|steps n test o N _ IH]; intros log E' h' H.
    - injection H as <- <- <-. reflexivity.
    - rewrite session_app in H. destruct (fsession view strx voc steps E h) as [[log1 E1] h1]. cbn [fsession] in H. destruct (validateM view strx E1 voc fuel 0 v [] h1). injection H as <- <- <-. exact (IH _ _ _ eq_refl).
    - rewrite session_app in H. destruct (fsession view strx voc steps E h) as [[log1 E1] h1]. cbn [fsession] in H. injection H as <- <- <-. cbn [fmt with_format]. rewrite str_eqb_refl. reflexivity.
    - rewrite session_app in H. destruct (fsession view strx voc steps E h) as [[log1 E1] h1]. cbn [fsession] in H. injection H as <- <- <-. cbn [fmt with_format]. destruct (str_eqb name n) eqn:C; [apply str_eqb_eq in C; congruence|]. exact (IH _ _ _ eq_refl).
  Qed.
  Lemma session_rest steps : forall E h log E' h', fsession view strx voc steps E h = (log, E', h') -> re_ok E' = re_ok E /\ re_search E' = re_search E /\ dec_of_str E' = dec_of_str E.
  Proof.
    induction steps as [|[fuel v|n t] steps IH]; intros E h log E' h' H; cbn [fsession] in H.
    - injection H as <- <- <-. auto.
    - destruct (validateM view strx E voc fuel 0 v [] h) as [h1 r]. destruct (fsession view strx voc steps E h1) as [[l1 E1] h2] eqn:S. injection H as <- <- <-. exact (IH _ _ _ _ _ S).
    - exact (IH _ _ _ _ _ H).
  Qed.
  Lemma last_total name steps : exists o, last_registered name steps o.
  Proof.
    induction steps as [|s steps [o L]] using rev_ind; [exists None; constructor|]. destruct s as [fuel v|n t]; [exists o; constructor; exact L|].
    destruct (str_eqb n name) eqn:C; [apply str_eqb_eq in C; subst n; exists (Some t); econstructor; exact L|]. exists o. constructor; [|exact L]. intros ->. rewrite str_eqb_refl in C. discriminate.
  Qed.
  (** after any calls and registrations, the next call answers as a schema object that
      was never used answers, where every name has the test registered last under it
      (the one there was at first, if none was) and nothing else changed *)
  Theorem C123_effect root E steps fuel v : exists log E' h' r,
    fsession view strx voc (steps ++ [FValidate fuel v]) E (fresh root) = (log ++ [FOutcome E' fuel v r], E', h') /\
    r = snd (validateM view strx E' voc fuel 0 v [] (fresh root)) /\ r = validate view strx E' voc fuel root v [] /\
    re_ok E' = re_ok E /\ re_search E' = re_search E /\ dec_of_str E' = dec_of_str E /\
    forall name, exists o, last_registered name steps o /\ fmt E' name = match o with Some test => Some test | None => fmt E name end.
  Proof.
    destruct (fsession view strx voc steps E (fresh root)) as [[log E'] h1] eqn:S. destruct (validateM view strx E' voc fuel 0 v [] h1) as [h' r] eqn:V.
    assert (F : fsession view strx voc (steps ++ [FValidate fuel v]) E (fresh root) = (log ++ [FOutcome E' fuel v r], E', h')). { rewrite session_app, S. cbn [fsession]. rewrite V. reflexivity. }
    exists log, E', h', r. split; [exact F|]. pose proof (C123_current _ _ _ _ _ _ F) as C. apply Forall_app in C as [_ C]. inversion C as [|? ? [C1 C2] _]. subst. cbn in C1, C2.
    split; [exact C2|]. split; [exact C1|]. destruct (session_rest _ _ _ _ _ _ S) as (R1 & R2 & R3). repeat (split; [assumption|]).
    intro name. destruct (last_total name steps) as [o L]. exists o. split; [exact L|]. exact (C123_formats _ _ _ _ _ _ _ _ S L).
  Qed.
End Formats.

(** a schema that asks for an unknown format cannot be built, inside a property; the same
    schema object works once the format is registered, and follows a second test
    registered under the name *)
Definition fs_schema : jt := jobj [("properties", jobj [("a", jobj [("minLength", jnum 1); ("format", jstr "sku")])])]%string.
Definition fs_value : pv := jdict [("a", VStr (u "x"))]%string.
Definition fs_steps : list fstep :=
  [FValidate 9 fs_value; FRegister (u "sku") (fun _ => Ok true); FValidate 9 fs_value; FRegister (u "even") (fun _ => Ok false); FValidate 9 fs_value;
   FRegister (u "sku") (fun _ => Ok false); FValidate 9 fs_value].
Definition fs_run : list foutcome * env * heap := fsession tview ex_strx all_keywords fs_steps ex_env (fresh fs_schema).
Example C123_some : exists e, map fo_result (fst (fst fs_run)) = [Raise e; Ok tt; Ok tt; Raise (EValid (VErr (KFormat (u "sku")) (u "a")))] /\
  (forall x, e <> EValid x) /\ next (snd fs_run) = 2%nat.
Proof. eexists. split; [vm_compute; reflexivity|]. split; [intros x; discriminate|vm_compute; reflexivity]. Qed.
Example C123_some_current : Forall (current tview ex_strx all_keywords fs_schema) (fst (fst fs_run)).
Proof. destruct fs_run as [[log E'] h'] eqn:R. exact (C123_current tview ex_strx all_keywords tview_wf fs_schema ex_env fs_steps log E' h' R). Qed.
Print Assumptions C123_effect.
