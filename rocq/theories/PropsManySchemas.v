(** C125: schema objects do not affect one another. *)
From Verif Require Import PyBase PyBaseFacts PyVal Errors Validators Keywords Memory KeywordFacts Master Claims ScalarFacts PropsScalar ExBase PropsMemory FormatSession PropsFormatSession PropsFormatUse ManySchemas.
Local Open Scope nat_scope.
Local Notation length := List.length (only parsing).

(** the documents of the schema objects made, in order *)
Inductive documents {node} (first : node) : list (mstep node) -> list node -> Prop :=
| doc_first : documents first [] [first]
| doc_new steps n ds : documents first steps ds -> documents first (steps ++ [MNew n]) (ds ++ [n])
| doc_call steps i fuel v ds : documents first steps ds -> documents first (steps ++ [MValidate i fuel v]) ds
| doc_register steps name test ds : documents first steps ds -> documents first (steps ++ [MRegister name test]) ds.
(** the formats after the registrations among the steps: nothing else touches them *)
Fixpoint registered {node} (steps : list (mstep node)) (E : env) : env :=
  match steps with
  | [] => E
  | MRegister name test :: steps' => registered steps' (with_format E name test)
  | _ :: steps' => registered steps' E
  end.

Section Many.
  Context {node : Type} (view : node -> res (nview node)) (strx : node -> pystr).
  Variable voc : list akw.
  Hypothesis Hwf : wf_view view.
  Definition sound (ds : list node) (p : process node) : Prop :=
    good view strx (pr_env p) voc (pr_heap p) /\ Forall2 (stands (pr_heap p)) (pr_roots p) ds.
  Lemma mruns_app a b p : mruns view strx voc (a ++ b) p = mruns view strx voc b (mruns view strx voc a p).
  Proof. revert p. induction a as [|s a IH]; intro p; [reflexivity|]. cbn [app mruns]. apply IH. Qed.
  Lemma roots_ext (h h' : @heap node) ls ds : ext h h' -> Forall2 (stands h) ls ds -> Forall2 (stands h') ls ds.
  Proof. intros X F. induction F; constructor; [eapply stands_ext; eassumption|assumption]. Qed.
  Lemma roots_at (h : @heap node) ls ds i l : Forall2 (stands h) ls ds -> nth_error ls i = Some l -> exists n, nth_error ds i = Some n /\ stands h l n.
  Proof. intro F. revert i. induction F as [|a b ls ds S F IH]; intros [|i] H; try discriminate H; [injection H as <-; exists b; split; [reflexivity|exact S]|apply IH, H]. Qed.
  Lemma roots_of (h : @heap node) ls ds i n : Forall2 (stands h) ls ds -> nth_error ds i = Some n -> exists l, nth_error ls i = Some l /\ stands h l n.
  Proof. intro F. revert i. induction F as [|a b ls ds S F IH]; intros [|i] H; try discriminate H; [injection H as <-; exists a; split; [reflexivity|exact S]|apply IH, H]. Qed.
  Lemma steps_sound E first steps ds : documents first steps ds -> sound ds (mruns view strx voc steps (started E first)).
  Proof.
    induction 1 as [|steps n ds _ [G F]|steps i fuel v ds _ [G F]|steps name test ds _ [G F]]; rewrite ?mruns_app; cbn [mruns].
    - split; [apply fresh_good|]. constructor; [split; simpl; [lia|reflexivity]|constructor].
    - destruct (mruns view strx voc steps (started E first)) as [E1 ls h]. cbn [pr_env pr_roots pr_heap] in *. cbn [mrun pr_env pr_roots pr_heap]. pose proof (alloc_ok view strx E1 voc n h G) as A. destruct (alloc n h) as [h1 l]. destruct A as (G1 & X1 & S1). cbn [fst]. split; [exact G1|]. cbn [pr_heap pr_roots].
      apply Forall2_app; [eapply roots_ext; [apply grow_ext; exact X1|exact F]|constructor; [exact S1|constructor]].
    - destruct (mruns view strx voc steps (started E first)) as [E1 ls h]. cbn [pr_env pr_roots pr_heap] in *. cbn [mrun pr_env pr_roots pr_heap]. destruct (nth_error ls i) as [l|] eqn:N; [|split; assumption]. destruct (roots_at _ _ _ _ _ F N) as (n & _ & S).
      destruct (view (c_node (cells h l))) as [w| |]; try (split; assumption). destruct (nv_val w); try (split; assumption).
      destruct (validateM_sim view strx E1 voc Hwf fuel l n v [] h S h G (ext_refl h)) as (h1 & E0 & G1 & X1). rewrite E0. cbn [fst]. split; [exact G1|]. eapply roots_ext; eassumption.
    - destruct (mruns view strx voc steps (started E first)) as [E1 ls h]. cbn [pr_env pr_roots pr_heap] in *. cbn [mrun fst pr_env pr_roots pr_heap]. split; [|exact F]. cbn [pr_env pr_heap]. eapply more_good; [apply registered_more|exact G].
  Qed.
  Lemma env_after steps : forall p, pr_env (mruns view strx voc steps p) = registered steps (pr_env p).
  Proof.
    induction steps as [|[n|i fuel v|name test] steps IH]; intro p; cbn [mruns registered]; [reflexivity| | |apply IH]; rewrite IH; cbn [mrun].
    - destruct (alloc n (pr_heap p)). reflexivity.
    - destruct (nth_error (pr_roots p) i) as [l|]; [|reflexivity]. destruct (view (c_node (cells (pr_heap p) l))) as [w| |]; try reflexivity. destruct (nv_val w); try reflexivity. destruct (validateM view strx (pr_env p) voc fuel l v [] (pr_heap p)). reflexivity.
  Qed.

  (** ** C125 *)
  (** whatever was made, called and registered before: a call of the schema object number
      [i] answers as if it were the only schema object and this its first call, with the
      registrations made so far *)
  Theorem C125_alone E first steps ds i n fuel v : documents first steps ds -> nth_error ds i = Some n ->
    snd (mrun view strx voc (MValidate i fuel v) (mruns view strx voc steps (started E first))) =
      snd (mrun view strx voc (MValidate 0 fuel v) (started (registered steps E) n)) /\
    snd (mrun view strx voc (MValidate 0 fuel v) (started (registered steps E) n)) = Some (schema_validate view strx (registered steps E) voc fuel n v).
  Proof.
    intros D N. pose proof (steps_sound E first steps ds D) as [G F]. pose proof (env_after steps (started E first)) as Ev. cbn [started pr_env] in Ev.
    destruct (mruns view strx voc steps (started E first)) as [E1 ls h]. cbn [pr_env pr_roots pr_heap mrun started nth_error] in *. subst E1. destruct (roots_of _ _ _ _ _ F N) as (l & -> & S).
    unfold schema_validate. cbn [fresh cells c_node]. rewrite (proj2 S). destruct (view n) as [w| |]; try (split; reflexivity). cbn [bind]. destruct (nv_val w); try (split; reflexivity).
    destruct (validateM_sim view strx _ voc Hwf fuel l n v [] h S h G (ext_refl h)) as (h1 & E0 & _). rewrite E0. cbn [snd].
    assert (Hf : stands (fresh n) 0%nat n) by (split; simpl; [lia|reflexivity]). destruct (validateM_sim view strx (registered steps E) voc Hwf fuel 0%nat n v [] (fresh n) Hf (fresh n) (fresh_good view strx _ voc n) (ext_refl _)) as (h2 & E2 & _). rewrite E2. split; reflexivity.
  Qed.
  (** without registrations: as if the others had never been made *)
  Theorem C125_others E first steps ds i n fuel v : documents first steps ds -> nth_error ds i = Some n -> (forall name test, ~ In (MRegister name test) steps) ->
    snd (mrun view strx voc (MValidate i fuel v) (mruns view strx voc steps (started E first))) =
    snd (mrun view strx voc (MValidate 0 fuel v) (started E n)).
  Proof.
    intros D N Nr. rewrite (proj1 (C125_alone E first steps ds i n fuel v D N)).
    assert (R : registered steps E = E). { clear -Nr. induction steps as [|[m|j fl x|name test] steps IH]; [reflexivity| | |destruct (Nr name test); left; reflexivity]; apply IH; intros nm t I; apply (Nr nm t); right; exact I. }
    rewrite R. reflexivity.
  Qed.
  Lemma registered_unused n fuel v c (steps : list (mstep node)) : (forall name test, In (MRegister name test) steps -> unused view name n) ->
    forall E, validate view strx (registered steps E) voc fuel n v c = validate view strx E voc fuel n v c.
  Proof.
    induction steps as [|[m|j fl x|name test] steps IH]; intros U E; cbn [registered]; [reflexivity| | |]; rewrite IH by (intros nm t I; apply (U nm t); right; exact I); try reflexivity.
    apply C124_one, (U name test). left. reflexivity.
  Qed.
  (** registrations of formats the document does not use, made for the sake of other
      schemas, are no different (C124) *)
  Theorem C125_unused E first steps ds i n fuel v : documents first steps ds -> nth_error ds i = Some n ->
    (forall name test, In (MRegister name test) steps -> unused view name n) ->
    snd (mrun view strx voc (MValidate i fuel v) (mruns view strx voc steps (started E first))) =
    snd (mrun view strx voc (MValidate 0 fuel v) (started E n)).
  Proof.
    intros D N U. destruct (C125_alone E first steps ds i n fuel v D N) as [-> ->]. destruct (C125_alone E n [] [n] 0 n fuel v (doc_first n) eq_refl) as [_ H]. cbn [registered] in H. rewrite H. f_equal.
    unfold schema_validate. destruct (view n) as [w| |]; try reflexivity. cbn [bind]. destruct (nv_val w); try reflexivity. apply registered_unused, U.
  Qed.
  Lemma documents_exist (first : node) steps : exists ds, documents first steps ds.
  Proof. induction steps as [|s steps [ds D]] using rev_ind; [exists [first]; constructor|]. destruct s; eexists; econstructor; exact D. Qed.
End Many.

(** three schema objects, two over the same document, called in turn; one cannot be built *)
Definition ms_first : jt := jobj [("properties", jobj [("a", jobj [("minLength", jnum 2)])])]%string.
Definition ms_bad : jt := jobj [("maxLength", jnum 3); ("pattern", jstr "(")]%string.
Definition ms_steps : list (mstep jt) :=
  [MValidate 0 9 (jdict [("a", VStr (u "xy"))]%string); MNew ms_bad; MValidate 1 9 (VStr (u "x")); MNew ms_first; MValidate 2 1 (jdict [("a", VStr (u "xy"))]%string);
   MValidate 1 9 (VStr (u "x")); MValidate 0 9 (jdict [("a", VStr (u "x"))]%string)].
Example C125_docs : documents ms_first ms_steps [ms_first; ms_bad; ms_first].
Proof.
  unfold ms_steps. change [ms_first; ms_bad; ms_first] with (([ms_first] ++ [ms_bad]) ++ [ms_first]).
  apply (doc_call _ [_; _; _; _; _; _]), (doc_call _ [_; _; _; _; _]), (doc_call _ [_; _; _; _]), (doc_new _ [_; _; _]), (doc_call _ [_; _]), (doc_new _ [_]), (doc_call _ []), doc_first.
Qed.
Definition ms_call i v := snd (mrun tview ex_strx all_keywords (MValidate i 9 v) (mruns tview ex_strx all_keywords ms_steps (started ex_env ms_first))).
Example C125_some : ms_call 2 (jdict [("a", VStr (u "x"))]%string) = Some (Raise (EValid (VErr (KMinLength 2) (u "a")))) /\ ms_call 1 (VStr (u "x")) = Some (Raise ERe) /\ ms_call 0 (jdict [("a", VStr (u "xy"))]%string) = Some (Ok tt).
Proof. vm_compute. auto. Qed.
Example C125_some_alone v : ms_call 2 v = snd (mrun tview ex_strx all_keywords (MValidate 0 9 v) (started ex_env ms_first)).
Proof. eapply C125_others; [exact tview_wf|exact C125_docs|reflexivity|]. intros name test I. cbn [ms_steps In] in I. repeat (destruct I as [I|I]; [discriminate I|]). destruct I. Qed.
Print Assumptions C125_alone.
(** a document that is a list accepts everything, made beside others *)
Example C125_list : snd (mrun tview ex_strx all_keywords (MValidate 1 9 VNone) (mruns tview ex_strx all_keywords [MNew (TArr [ms_bad]); MValidate 0 9 VNone] (started ex_env ms_bad))) = Some (Ok tt).
Proof. vm_compute. reflexivity. Qed.
(** one schema's format, registered while another is in use *)
Definition mu_steps : list (mstep jt) := [MValidate 0 9 (jdict []); MNew fs_schema; MRegister (u "sku") (fun _ => Ok false); MValidate 1 9 fs_value].
Example C125_unused_some v : snd (mrun tview ex_strx all_keywords (MValidate 0 9 v) (mruns tview ex_strx all_keywords mu_steps (started ex_env fu_schema))) =
  snd (mrun tview ex_strx all_keywords (MValidate 0 9 v) (started ex_env fu_schema)).
Proof.
  assert (D : documents fu_schema mu_steps ([fu_schema] ++ [fs_schema])) by exact (doc_call _ [_; _; _] _ _ _ _ (doc_register _ [_; _] _ _ _ (doc_new _ [_] _ _ (doc_call _ [] _ _ _ _ (doc_first _))))).
  eapply C125_unused; [exact tview_wf|exact D|reflexivity|]. intros name test I. cbn [mu_steps In] in I. repeat (destruct I as [I|I]; [first [discriminate I|injection I as <- _; exact C124_unused]|]). destruct I.
Qed.
