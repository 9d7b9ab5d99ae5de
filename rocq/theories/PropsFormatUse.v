(** C124: registering a format does nothing to schemas that do not ask for it. *)
From Verif Require Import PyBase PyBaseFacts PyVal Errors Validators Keywords Memory KeywordFacts Mono Parametric Master Claims ScalarFacts PropsScalar ExBase PropsMemory FormatSession PropsFormatSession.
Local Open Scope nat_scope.
Local Notation length := List.length (only parsing).

(** ** The nodes of a document *)
Section Within.
  Context {node : Type} (view : node -> res (nview node)).
  (** [m] is an element or a member's value of [n] (of its target, if [n] is a reference) *)
  Inductive child (n : node) : node -> Prop :=
  | child_element w l m : view n = Ok w -> nv_val w = NArr l -> In m l -> child n m
  | child_member w items k m : view n = Ok w -> nv_val w = NObj items -> In (k, m) items -> child n m.
  Inductive within (root : node) : node -> Prop :=
  | within_root : within root root
  | within_child n m : within root n -> child n m -> within root m.
  (** no object of the document has a member [format] with this text *)
  Definition unused (name : pystr) (root : node) : Prop :=
    forall n w items m f, within root n -> view n = Ok w -> nv_val w = NObj items -> dget (u "format") items = Some m -> view m <> Ok (NView (NStr name) f).
End Within.

(** ** The same document, cut to its own nodes *)
Section Cut.
  Context {node : Type} (view : node -> res (nview node)) (P : node -> Prop).
  Hypothesis closed : forall n m, P n -> child view n m -> P m.
  Definition part := {n : node | P n}.
  Fixpoint attach (l : list node) : (forall m, In m l -> P m) -> list part :=
    match l with
    | [] => fun _ => []
    | m :: l' => fun H => exist _ m (H m (or_introl eq_refl)) :: attach l' (fun x I => H x (or_intror I))
    end.
  Fixpoint attachm (d : list (pystr * node)) : (forall k m, In (k, m) d -> P m) -> list (pystr * part) :=
    match d with
    | [] => fun _ => []
    | km :: d' => fun H => (fst km, exist _ (snd km) (H (fst km) (snd km) (or_introl (surjective_pairing km)))) :: attachm d' (fun k x I => H k x (or_intror I))
    end.
  Definition of_part (a : node) (x : part) : Prop := a = proj1_sig x.
  Lemma attach_same l H : Forall2 of_part l (attach l H).
  Proof. revert H. induction l as [|m l IH]; intro H; constructor; [reflexivity|apply IH]. Qed.
  Lemma attachm_same d H : Forall2 (member of_part) d (attachm d H).
  Proof. revert H. induction d as [|km d IH]; intro H; constructor; [split; reflexivity|apply IH]. Qed.
  Definition cut_val (n : node) (w : nview node) (Hn : P n) (Hw : view n = Ok w) : nval part :=
    match nv_val w as v return nv_val w = v -> nval part with
    | NNull => fun _ => NNull
    | NBool b => fun _ => NBool b
    | NNum d => fun _ => NNum d
    | NStr s => fun _ => NStr s
    | NArr l => fun E => NArr (attach l (fun m I => closed n m Hn (child_element view n w l m Hw E I)))
    | NObj d => fun E => NObj (attachm d (fun k m I => closed n m Hn (child_member view n w d k m Hw E I)))
    end eq_refl.
  Lemma cut_val_same n w Hn Hw : rel_nval of_part (nv_val w) (cut_val n w Hn Hw).
  Proof.
    unfold cut_val. assert (H : forall v (E : nv_val w = v), rel_nval of_part v
      (match v as v0 return nv_val w = v0 -> nval part with
       | NNull => fun _ => NNull | NBool b => fun _ => NBool b | NNum d => fun _ => NNum d | NStr s => fun _ => NStr s
       | NArr l => fun E => NArr (attach l (fun m I => closed n m Hn (child_element view n w l m Hw E I)))
       | NObj d => fun E => NObj (attachm d (fun k m I => closed n m Hn (child_member view n w d k m Hw E I)))
       end E)).
    { intros v E. destruct v; constructor; [apply attach_same|apply attachm_same]. }
    apply H.
  Qed.
  Definition cut (x : part) : res (nview part) :=
    match view (proj1_sig x) as r return view (proj1_sig x) = r -> res (nview part) with
    | Ok w => fun E => Ok (NView (cut_val (proj1_sig x) w (proj2_sig x) E) (nv_ref w))
    | Raise e => fun _ => Raise e
    | OutOfFuel => fun _ => OutOfFuel
    end eq_refl.
  Lemma cut_same a x : of_part a x -> rel_res (rel_view of_part) (view a) (cut x).
  Proof.
    intros ->. unfold cut. assert (H : forall r (E : view (proj1_sig x) = r), rel_res (rel_view of_part) r
      (match r as r0 return view (proj1_sig x) = r0 -> res (nview part) with
       | Ok w => fun E => Ok (NView (cut_val (proj1_sig x) w (proj2_sig x) E) (nv_ref w)) | Raise e => fun _ => Raise e | OutOfFuel => fun _ => OutOfFuel end E)).
    { intros r E. destruct r; constructor. split; [apply cut_val_same|reflexivity]. }
    apply H.
  Qed.
  Variables (strx : node -> pystr) (E : env).
  Lemma cut_validate voc fuel n (Hn : P n) v c : validate view strx E voc fuel n v c = validate cut (fun x => strx (proj1_sig x)) E voc fuel (exist _ n Hn) v c.
  Proof. apply (validate_related of_part); [exact cut_same|intros a x ->; reflexivity|reflexivity]. Qed.
End Cut.

(** ** Where no node asks for the format *)
Section Free.
  Context {node : Type} (view : node -> res (nview node)) (strx : node -> pystr) (E : env) (name : pystr) (test : pv -> res bool).
  Hypothesis free : forall n w items m f, view n = Ok w -> nv_val w = NObj items -> dget (u "format") items = Some m -> view m <> Ok (NView (NStr name) f).
  Local Notation E' := (with_format E name test).
  Definition other (o : vobj node node) : Prop := o <> VFormat name.
  Lemma other_set k o d : other o -> Forall (fun kv => other (snd kv)) d -> Forall (fun kv => other (snd kv)) (dset k o d).
  Proof. intros H F. induction F as [|[k1 o1] d H1 F IH]; cbn [dset]; [repeat constructor; exact H|]. destruct (str_eqb k k1); constructor; auto. Qed.
  Lemma free_apply n w k items d : view n = Ok w -> nv_val w = NObj items -> apply view strx E' k items d = apply view strx E k items d.
  Proof.
    intros Hn Hi. destruct k; try reflexivity. unfold apply, opnd, opnd_node. cbn [kw_key]. destruct (dget (u "format") items) as [m|] eqn:G; [|reflexivity]. destruct (view m) as [[x f]| |] eqn:V; try reflexivity. cbn [bind].
    unfold as_str. cbn [nv_val nv_ref]. destruct x; try reflexivity. destruct f; [reflexivity|]. cbn [bind fmt with_format]. destruct (str_eqb s name) eqn:C; [|reflexivity]. apply str_eqb_eq in C. subst s. destruct (free n w items m false Hn Hi G V).
  Qed.
  Local Ltac split_res H := repeat first
    [ discriminate H
    | match type of H with
      | bind ?m _ = Ok _ => let a := fresh "a" in let Q := fresh "Q" in destruct m as [a| |] eqn:Q; cbn [bind] in H
      | context [match ?x with _ => _ end] => let Q := fresh "Q" in destruct x eqn:Q; cbn [bind] in H
      end ].
  Lemma apply_other n w k items d d' : view n = Ok w -> nv_val w = NObj items -> apply view strx E k items d = Ok d' -> Forall (fun kv => other (snd kv)) d -> Forall (fun kv => other (snd kv)) d'.
  Proof.
    intros Hn Hi H F. unfold apply in H. destruct (opnd view items (kw_key k)) as [wk| |] eqn:W; try discriminate H. cbn [bind] in H. destruct (opnd_node items (kw_key k)) as [nk| |] eqn:NK; try discriminate H. cbn [bind] in H.
    destruct k.
    all: try (split_res H; first [injection H as <-|idtac]; first [exact F | unfold put, put_objv, put_condv; apply other_set; [discriminate|exact F]]; fail).
    destruct (as_str wk) as [f| |] eqn:A; try discriminate H. cbn [bind] in H. destruct (fmt E f); [|discriminate H]. injection H as <-. unfold put. apply other_set; [|exact F]. intros [= ->].
    unfold opnd in W. cbn [kw_key] in W. destruct (dget (u "format") items) as [m|] eqn:G; [|discriminate W]. unfold as_str in A. destruct wk as [x fl]. cbn [nv_val nv_ref] in A. destruct x; try discriminate A. destruct fl; [discriminate A|]. injection A as ->. exact (free n w items m false Hn Hi G W).
  Qed.
  Lemma free_run n w l : view n = Ok w -> forall d, Forall (fun kv => other (snd kv)) d ->
    run_kws view strx E' w l d = run_kws view strx E w l d /\ forall d', run_kws view strx E w l d = Ok d' -> Forall (fun kv => other (snd kv)) d'.
  Proof.
    intro Hn. induction l as [|k l IH]; intros d F; cbn [run_kws]; [split; [reflexivity|intros d' [= <-]; exact F]|].
    assert (S : step_kw view strx E' w k d = step_kw view strx E w k d /\ forall d', step_kw view strx E w k d = Ok d' -> Forall (fun kv => other (snd kv)) d').
    { unfold step_kw. destruct (can_apply view w (kw_key k)) as [b| |]; cbn [bind]; try (split; [reflexivity|discriminate]). destruct b; [|split; [reflexivity|intros d' [= <-]; exact F]].
      destruct (nv_val w) eqn:Hi; try (split; [reflexivity|discriminate]). split; [eapply free_apply; eassumption|intros d' A; eapply apply_other; eassumption]. }
    destruct S as [S1 S2]. rewrite S1. destruct (step_kw view strx E w k d) as [d1| |]; cbn [bind]; try (split; [reflexivity|discriminate]). apply IH, S2. reflexivity.
  Qed.
  Lemma free_compile voc n : compile view strx E' voc n = compile view strx E voc n /\ forall d, compile view strx E voc n = Ok d -> Forall (fun kv => other (snd kv)) d.
  Proof.
    unfold compile. destruct (view n) as [w| |] eqn:Hn; cbn [bind]; try (split; [reflexivity|discriminate]).
    destruct (nv_val w); try (apply (free_run n); [exact Hn|constructor]). split; [reflexivity|]. intros d [= <-]. destruct b; repeat constructor. discriminate.
  Qed.
  Lemma le_both {A} (r s : res A) : le_res r s -> le_res s r -> r = s.
  Proof. unfold le_res. intros [->| ->] [X|X]; congruence. Qed.
  Lemma free_vobj (rec : node -> pv -> ctx -> res unit) lf o v c : other o -> run_vobj view E' rec lf o v c = run_vobj view E rec lf o v c.
  Proof.
    intro H. destruct o; try reflexivity. cbn [run_vobj]. unfold format_validate. cbn [fmt with_format]. match goal with |- context [str_eqb ?f name] => destruct (str_eqb f name) eqn:C; [apply str_eqb_eq in C; subst f|reflexivity] end. destruct (H eq_refl).
  Qed.
  Lemma free_validate voc fuel : forall n v c, validate view strx E' voc fuel n v c = validate view strx E voc fuel n v c.
  Proof.
    induction fuel as [|fuel IH]; intros n v c; [reflexivity|]. cbn [validate]. destruct (free_compile voc n) as [C1 C2]. rewrite C1. destruct (compile view strx E voc n) as [d| |]; try reflexivity. cbn [bind]. specialize (C2 d eq_refl). clear C1.
    induction C2 as [|[k o] d Ho _ IHd]; cbn [for_each snd]; [reflexivity|]. rewrite IHd. rewrite free_vobj by exact Ho.
    rewrite (le_both (run_vobj view E (validate view strx E' voc fuel) fuel o v c) (run_vobj view E (validate view strx E voc fuel) fuel o v c)); [reflexivity| |]; apply le_run_vobj; try lia; intros; rewrite IH; apply le_refl.
  Qed.
End Free.

(** ** C124 *)
Section Unused.
  Context {node : Type} (view : node -> res (nview node)) (strx : node -> pystr).
  Variable voc : list akw.
  (** one registration *)
  Theorem C124_one E name test root fuel v c : unused view name root ->
    validate view strx (with_format E name test) voc fuel root v c = validate view strx E voc fuel root v c.
  Proof.
    intro U. set (P := within view root). assert (closed : forall n m, P n -> child view n m -> P m) by (intros n m; apply within_child).
    pose proof (within_root view root : P root) as Pr. rewrite !(cut_validate view P closed strx _ voc fuel root Pr). apply free_validate.
    intros x w items m f Hx Hi G Hm. pose proof (cut_same view P closed (proj1_sig x) x eq_refl) as Rx. rewrite Hx in Rx. inversion Rx as [w1 ? [Rv _] E1| |]; subst. rewrite Hi in Rv. inversion Rv as [| | | | |d d' F E2]; subst.
    pose proof (member_get _ _ _ (u "format") F) as O. rewrite G in O. inversion O as [|a b Ra E3]; subst. pose proof (cut_same view P closed a m Ra) as Rm. rewrite Hm in Rm. inversion Rm as [w2 ? [Rv2 Rf] E4| |]; subst. cbn [nv_val nv_ref] in *. inversion Rv2 as [| | |s0 E5| |]; subst.
    destruct w2 as [v2 f2]. cbn [nv_val] in E5. subst v2. eapply (U (proj1_sig x) w1 d a); [exact (proj2_sig x)|symmetry; exact E1|symmetry; exact E2|symmetry; exact E3|symmetry; exact E4].
  Qed.
  (** any number of them, between any calls: every call answers as on a schema object
      that was never used, with the formats there were at first *)
  Theorem C124_session root E steps log E' h' : wf_view view ->
    (forall name test, In (FRegister name test) steps -> unused view name root) ->
    fsession view strx voc steps E (fresh root) = (log, E', h') ->
    Forall (fun o => fo_result o = validate view strx E voc (fo_fuel o) root (fo_value o) []) log.
  Proof.
    intros Hwf U H. pose proof (C123_current view strx voc Hwf root E steps log E' h' H) as C.
    assert (Same : Forall (fun o => forall fuel v, validate view strx (fo_env o) voc fuel root v [] = validate view strx E voc fuel root v []) log).
    { clear C. revert H. generalize (fresh root). revert U. assert (S : forall fuel v, validate view strx E voc fuel root v [] = validate view strx E voc fuel root v []) by reflexivity. revert S. generalize E at 1 3. revert log.
      induction steps as [|[fuel v|name test] steps IH]; intros log E0 S U h H; cbn [fsession] in H.
      - injection H as <- _ _. constructor.
      - destruct (validateM view strx E0 voc fuel 0 v [] h) as [h1 r]. destruct (fsession view strx voc steps E0 h1) as [[log1 E1] h2] eqn:Q. injection H as <- <- <-. constructor; [exact S|]. eapply IH; [exact S|intros; eapply U; right; eassumption|exact Q].
      - eapply IH; [|intros; eapply U; right; eassumption|exact H]. intros fuel v. rewrite C124_one; [apply S|eapply U; left; reflexivity]. }
    clear H. induction C as [|o log [C1 _] _ IH]; constructor; inversion Same; subst; [congruence|auto].
  Qed.
End Unused.

(** a schema with a format inside a property, and one that only has a property of that name *)
Definition fu_schema : jt := jobj [("properties", jobj [("format", jobj [("format", jstr "even")]); ("b", jobj [("enum", TArr [jstr "sku"])])])]%string.
Definition fu_nodes : list jt :=
  Eval vm_compute in
  [fu_schema; jobj [("format", jobj [("format", jstr "even")]); ("b", jobj [("enum", TArr [jstr "sku"])])]; jobj [("format", jstr "even")]; jstr "even";
   jobj [("enum", TArr [jstr "sku"])]; TArr [jstr "sku"]; jstr "sku"]%string.
Lemma fu_within n : within tview fu_schema n -> In n fu_nodes.
Proof.
  induction 1 as [|n m _ IH C]; [left; reflexivity|]. unfold fu_nodes in IH.
  destruct C as [w l m V E I|w d k m V E I]; repeat destruct IH as [<-|IH]; try destruct IH; vm_compute in V; injection V as <-; try discriminate E; cbn [nv_val] in E; injection E as <-;
    repeat (destruct I as [I|I]; [first [injection I as <- <-|subst m]; unfold fu_nodes; cbn [In]; auto 10|]); destruct I.
Qed.
Example C124_unused : unused tview (u "sku") fu_schema.
Proof.
  intros n w items m f W V E G Hm. apply fu_within in W. unfold fu_nodes in W. repeat destruct W as [<-|W]; try destruct W; vm_compute in V; injection V as <-; try discriminate E; cbn [nv_val] in E; injection E as <-; vm_compute in G; try discriminate G; injection G as <-; vm_compute in Hm; discriminate Hm.
Qed.
(** the test registered under another name would reject, or fail *)
Definition fu_steps : list fstep :=
  [FValidate 9 (jdict [("format", VStr (u "xy")); ("b", VStr (u "sku"))]%string); FRegister (u "sku") (fun _ => Raise EType);
   FValidate 9 (jdict [("format", VStr (u "xy")); ("b", VStr (u "sku"))]%string); FRegister (u "sku") (fun _ => Ok false);
   FValidate 9 (jdict [("format", VStr (u "xyz"))]%string)].
Example C124_some : exists log E' h', fsession tview ex_strx all_keywords fu_steps ex_env (fresh fu_schema) = (log, E', h') /\
  map fo_result log = [Ok tt; Ok tt; Raise (EValid (VErr (KFormat (u "even")) (u "format")))] /\
  Forall (fun o => fo_result o = validate tview ex_strx ex_env all_keywords (fo_fuel o) fu_schema (fo_value o) []) log.
Proof.
  destruct (fsession tview ex_strx all_keywords fu_steps ex_env (fresh fu_schema)) as [[log E'] h'] eqn:S. exists log, E', h'. split; [reflexivity|]. split.
  - apply (f_equal (fun x => map fo_result (fst (fst x)))) in S. cbn [fst] in S. rewrite <- S. vm_compute. reflexivity.
  - eapply C124_session; [exact tview_wf| |exact S]. intros name test I. cbn [fu_steps In] in I. repeat (destruct I as [I|I]; [first [discriminate I|injection I as <- _; exact C124_unused]|]). destruct I.
Qed.
(** of a schema that has the format, it is not so *)
Example C124_used : validate tview ex_strx (with_format ex_env (u "even") (fun _ => Ok false)) all_keywords 9 fu_schema (jdict [("format", VStr (u "xy"))]%string) [] <>
  validate tview ex_strx ex_env all_keywords 9 fu_schema (jdict [("format", VStr (u "xy"))]%string) [].
Proof. vm_compute. discriminate. Qed.
Print Assumptions C124_session.
