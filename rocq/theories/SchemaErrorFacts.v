(** Telling the place of a [SchemaParseError] changes nothing else of a validation. *)
From Verif Require Import PyBase PyBaseFacts PyVal OrderFacts Errors Validators Keywords Parametric Interrupt Heap SchemaError.
From Coq Require Import QArith.
Local Open Scope Z_scope.
Local Notation length := List.length (only parsing).

(** no [SchemaParseError] *)
Definition quiet {A} (r : res A) : Prop := r <> Raise ESchemaParse.
(** the formats and [Decimal] do not raise it *)
Record calm (E : env) : Prop := Calm {
  calm_fmt : forall name f v, fmt E name = Some f -> quiet (f v);
  calm_dec : forall s, quiet (dec_of_str E s)
}.
Lemma quiet_ok {A} (a : A) : quiet (Ok a).
Proof. discriminate. Qed.
Lemma quiet_fuel {A} : quiet (@OutOfFuel A).
Proof. discriminate. Qed.
Lemma quiet_bind {A B} (r : res A) (k : A -> res B) : quiet r -> (forall a, quiet (k a)) -> quiet (bind r k).
Proof. intros H K. destruct r as [a|e|]; cbn [bind]; [apply K| |discriminate]. intros [= ->]. apply H. reflexivity. Qed.
Lemma quiet_for_each {A} (f : A -> res unit) l : (forall a, quiet (f a)) -> quiet (for_each f l).
Proof. intro H. induction l as [|x l IH]; cbn [for_each]; [apply quiet_ok|]. apply quiet_bind; auto. Qed.
Ltac quiet :=
  repeat match goal with
  | |- quiet (Ok _) => apply quiet_ok
  | |- quiet OutOfFuel => apply quiet_fuel
  | |- quiet (Raise _) => discriminate
  | |- quiet (bind _ _) => apply quiet_bind; [|intro]
  | |- quiet (for_each _ _) => apply quiet_for_each; intro
  | |- quiet (match ?x with _ => _ end) => destruct x
  | |- quiet (if ?x then _ else _) => destruct x
  end.
Lemma quiet_scan fs t : forall i, quiet (format_scan fs i t).
Proof.
  assert (Hlen : forall n t, (length t <= n)%nat -> forall i, quiet (format_scan fs i t)).
  { induction n as [|n IH]; intros s Hs j.
    - destruct s; [|cbn in Hs; lia]. destruct j; cbn [format_scan]; quiet.
    - assert (I : forall x acc, quiet (get_integer acc x)) by (induction x as [|y x IHx]; intro acc; cbn [get_integer]; quiet; apply IHx).
      assert (F : forall x, quiet (field_outcome fs x)) by (intro x; unfold field_outcome; apply quiet_bind; [unfold positional; destruct (first_part x); [quiet|apply quiet_bind; [apply I|intros; quiet]]|intros i; quiet]).
      destruct s as [|c s]; [destruct j; cbn [format_scan]; quiet|]. cbn [length] in Hs. destruct j as [acc|]; cbn [format_scan].
      + destruct (_ =? _)%N; [quiet|]. destruct (_ =? _)%N; [apply quiet_bind; [apply F|intros _]; apply IH; lia|].
        destruct (goes_on c); [destruct (name_ends _ _); [apply quiet_bind; [apply F|intros _; quiet]|quiet]|apply IH; lia].
      + destruct (_ =? _)%N; [|destruct (_ =? _)%N; [|apply IH; lia]].
        * destruct s as [|c' s]; [quiet|]. cbn [length] in Hs. destruct (_ =? _)%N; [apply IH; lia|quiet].
        * destruct s as [|c' s]; [quiet|]. cbn [length] in Hs. destruct (_ =? _)%N; apply IH; cbn [length]; lia. }
  intro i. eapply Hlen. reflexivity.
Qed.
Lemma quiet_verr {A} k p : quiet (@raise_verr A k p).
Proof. unfold raise_verr. destruct (by_args k); [quiet|]. apply quiet_bind; [apply quiet_scan|intros _; quiet]. Qed.

(** the first tells the place where the second raises [SchemaParseError] *)
Definition tells {A} (r' r : res A) : Prop :=
  (r' = r /\ quiet r) \/ exists s, r' = Raise (ENeeds s) /\ r = Raise ESchemaParse.
Lemma tells_same {A} (r : res A) : quiet r -> tells r r.
Proof. left. auto. Qed.
Lemma tells_bind {A B} (m' m : res A) (k' k : A -> res B) : tells m' m -> (forall a, tells (k' a) (k a)) -> tells (bind m' k') (bind m k).
Proof.
  intros [[-> Q]|(s & -> & ->)] K; [|right; exists s; auto]. destruct m as [a|e|]; cbn [bind]; [apply K| |left; split; [reflexivity|quiet]].
  left. split; [reflexivity|]. intros [= ->]. apply Q. reflexivity.
Qed.
Lemma tells_for_each {A} (f g : A -> res unit) l : (forall x, tells (f x) (g x)) -> tells (for_each f l) (for_each g l).
Proof. intro H. induction l as [|x l IH]; cbn [for_each]; [apply tells_same; quiet|]. apply tells_bind; auto. Qed.
Lemma tells_try m' m : tells m' m -> tells (try_valid m') (try_valid m).
Proof. intros [[-> Q]|(s & -> & ->)]; [|right; exists s; auto]. left. split; [reflexivity|]. destruct m as [[]|e|]; cbn; [quiet| |quiet]. destruct e; try quiet. exfalso. apply Q. reflexivity. Qed.

Section Run.
  Variables (view : addr -> res (nview addr)) (strx : addr -> pystr) (E : env).
  Hypothesis Hview : forall a, quiet (view a).
  Hypothesis Hcalm : calm E.

  Lemma quiet_node v : forall a, quiet (eq_node view v a).
  Proof.
    induction v as [v Hl Hd|vs IH|d IH] using pv_ind_deep; intro a.
    - destruct v; cbn [eq_node]; try (apply quiet_bind; [apply Hview|intro w; quiet]); exfalso; [eapply Hl|eapply Hd]; reflexivity.
    - cbn [eq_node]. apply quiet_bind; [apply Hview|]. intro w. destruct (nv_val w) as [| | | |l|m]; try (quiet; fail).
      destruct (Nat.eqb _ _); [|quiet]. revert l. induction IH as [|v vs I1 _ IHv]; intros [|x l]; try quiet; [apply I1|apply IHv].
    - cbn [eq_node]. apply quiet_bind; [apply Hview|]. intro w. destruct (nv_val w) as [| | | |l|m]; try (quiet; fail).
      destruct (Nat.eqb _ _); [|quiet].
      assert (K : forall k t, dget k (map (fun '(k, x) => (k, eq_node view x)) d) = Some t -> forall x, quiet (t x)).
      { intros k t. induction IH as [|[k1 x] d I1 _ IHd]; cbn [map dget]; [discriminate|]. destruct (str_eqb k k1); [intros [= <-]; exact I1|exact IHd]. }
      induction m as [|[k x] m IHm]; [quiet|]. destruct (dget k _) as [t|] eqn:G; [|quiet]. apply quiet_bind; [eapply K, G|]. intros [|]; [exact IHm|quiet].
  Qed.
  Lemma quiet_raw x v : quiet (eq_raw view x v).
  Proof.
    destruct x as [| | | |l|m]; cbn [eq_raw]; try (quiet; fail).
    - destruct v as [| | | | | |vs|]; try (quiet; fail). destruct (Nat.eqb _ _); [|quiet]. revert l. induction vs as [|v vs IH]; intros [|x l]; try quiet; [apply quiet_node|apply IH].
    - destruct v as [| | | | | | |its]; try (quiet; fail). destruct (Nat.eqb _ _); [|quiet]. induction m as [|[k x] m IHm]; [quiet|]. destruct (dget k its); [|quiet]. apply quiet_bind; [apply quiet_node|]. intros [|]; [exact IHm|quiet].
  Qed.
  Lemma quiet_enum l v c : quiet (enum_validate view l v c).
  Proof.
    unfold enum_validate. cbv zeta. destruct (_ && _)%bool; [apply quiet_verr|]. apply quiet_bind; [|intros [|]; [quiet|apply quiet_verr]].
    destruct (_ || _)%bool; (induction l as [|x l IH]; cbn [enum_tweak_loop enum_in]; [quiet|]; apply quiet_bind; [apply quiet_raw|]; intro b; destruct b; quiet; exact IH).
  Qed.
  Lemma quiet_const x v c : quiet (const_validate view x v c).
  Proof. unfold const_validate. destruct (_ && _)%bool; [apply quiet_verr|]. apply quiet_bind; [apply quiet_raw|]. intros [|]; [quiet|apply quiet_verr]. Qed.
  Lemma quiet_unique c l : forall seen i, quiet (unique_loop seen i l c).
  Proof. induction l as [|x l IH]; intros seen i; cbn [unique_loop]; [quiet|]. destruct (hashable x); [|quiet]. destruct (existsb _ seen); [apply quiet_verr|apply IH]. Qed.

  Section Rec.
    Variables rec' rec : addr -> pv -> ctx -> res unit.
    Hypothesis Hrec : forall n v c, tells (rec' n v c) (rec n v c).
    Ltac same := apply tells_same; quiet.

    Lemma tells_pattern pats k x c b : tells (pattern_loop E rec' pats k x c b) (pattern_loop E rec pats k x c b).
    Proof.
      revert b. induction pats as [|[p n] pats IH]; intro b; cbn [pattern_loop]; [same|]. destruct (re_ok E p); [|same]. destruct (re_search E p k); [|apply IH].
      apply tells_bind; [apply Hrec|intros _; apply IH].
    Qed.
    Lemma tells_member o c kx : tells (member_validate E rec' o c kx) (member_validate E rec o c kx).
    Proof.
      destruct kx as [k x]. unfold member_validate. apply tells_bind; [destruct (ov_names o); [apply Hrec|same]|]. intros _. destruct (dget k (ov_data o)); [apply Hrec|].
      apply tells_bind; [destruct (ov_pat o); [apply tells_pattern|same]|]. intros [|]; [same|].
      destruct (ov_addl o) as [[|n]|]; cbn [run_sub]; [apply tells_same, quiet_verr|apply Hrec|]. destruct (ov_uneval o); [apply tells_same, quiet_verr|same].
    Qed.
    Lemma tells_prefix lf ps vals i c : tells (prefix_loop rec' lf ps vals i c) (prefix_loop rec lf ps vals i c).
    Proof.
      revert i. induction lf as [|lf IH]; intro i; cbn [prefix_loop]; [same|]. destruct (nth_error ps i); [|same].
      destruct (nth_error vals i); (apply tells_bind; [apply Hrec|intros _; apply IH]).
    Qed.
    Lemma tells_items n vals i c : tells (items_loop rec' n vals i c) (items_loop rec n vals i c).
    Proof. revert i. induction vals as [|x vals IH]; intro i; cbn [items_loop]; [same|]. apply tells_bind; [apply Hrec|intros _; apply IH]. Qed.
    Lemma tells_count n l : tells (count_valid rec' n l) (count_valid rec n l).
    Proof. induction l as [|x l IH]; cbn [count_valid]; [same|]. apply tells_bind; [apply tells_try, Hrec|intro r]. apply tells_bind; [exact IH|intro; same]. Qed.
    Lemma tells_anyof l v c last : tells (anyof_loop rec' l v c last) (anyof_loop rec l v c last).
    Proof. revert last. induction l as [|n l IH]; intro last; cbn [anyof_loop]; [same|]. apply tells_bind; [apply tells_try, Hrec|]. intros [e|]; [apply IH|same]. Qed.
    Lemma tells_oneof l v c k last : tells (oneof_loop rec' l v c k last) (oneof_loop rec l v c k last).
    Proof. revert k last. induction l as [|n l IH]; intros k last; cbn [oneof_loop]; [same; apply quiet_verr|]. apply tells_bind; [apply tells_try, Hrec|]. intros [e|]; apply IH. Qed.
    Lemma tells_run lf o v c : tells (run_vobj view E rec' lf o v c) (run_vobj view E rec lf o v c).
    Proof.
      destruct o; cbn [run_vobj].
      all: try (apply tells_same; unfold type_validate, maximum_validate, minimum_validate, min_len_validate, max_len_validate, required_validate, dep_required_validate, pattern_validate, py_le_dec, py_lt_dec, py_ge_dec, py_gt_dec, py_len, py_contains; quiet; apply quiet_verr).
      - apply tells_same, quiet_enum.
      - apply tells_same, quiet_const.
      - apply tells_same. unfold multiple_of_validate, dec_of_value, dec_rem_is_zero. destruct Hcalm as [_ T]. quiet; try apply quiet_verr. apply T.
      - apply tells_same. unfold format_validate. destruct (fmt E name) as [f|] eqn:Ef; [|quiet]. apply quiet_bind; [exact (calm_fmt E Hcalm _ _ _ Ef)|]. intros [|]; [quiet|apply quiet_verr].
      - unfold object_validate. destruct v; try same. apply tells_for_each. intro. apply tells_member.
      - unfold dep_schemas_validate. destruct v; try same. apply tells_for_each. intros [k n]. destruct (dmem k d); [apply Hrec|same].
      - unfold array_validate. destruct v; try (apply tells_same, quiet_verr). apply tells_bind; [destruct prefix as [[|p ps]|]; try same; apply tells_prefix|]. intro i. destruct items; [apply tells_items|same].
      - unfold contains_validate. apply tells_bind; [apply tells_same; unfold py_iter; quiet|intro l]. apply tells_bind; [apply tells_count|intro]. same; apply quiet_verr.
      - apply tells_same. unfold unique_validate. apply quiet_bind; [unfold py_iter; quiet|]. intro l. apply quiet_unique.
      - apply tells_for_each. intro. apply Hrec.
      - apply tells_anyof.
      - apply tells_oneof.
      - unfold not_validate. apply tells_bind; [apply tells_try, Hrec|]. intros [e|]; [same|apply tells_same, quiet_verr].
      - unfold cond_validate. destruct (cv_if c0); [|same]. apply tells_bind; [apply tells_try, Hrec|]. intros [e|].
        + destruct (cv_else c0); [apply Hrec|same].
        + destruct (cv_then c0); [apply Hrec|same].
    Qed.
  End Rec.

  Lemma tells_told {A} a (r : res A) : tells (told_at a r) r.
  Proof. destruct r as [x|e|]; cbn [told_at]; try (apply tells_same; quiet; fail). destruct e; try (apply tells_same; quiet; fail). right. eauto. Qed.
  Theorem validate_tells voc fuel : forall a v c, tells (validate_at view strx E voc fuel a v c) (validate view strx E voc fuel a v c).
  Proof.
    induction fuel as [|fuel IH]; intros a v c; cbn [validate_at validate]; [apply tells_same; quiet|]. apply tells_bind; [apply tells_told|]. intro d. apply tells_for_each. intro kv. apply tells_run, IH.
  Qed.
  Theorem schema_tells voc fuel a v : tells (schema_validate_at view strx E voc fuel a v) (schema_validate view strx E voc fuel a v).
  Proof.
    unfold schema_validate_at, schema_validate. apply tells_bind; [apply tells_same, Hview|]. intro w. destruct (nv_val w); try (apply tells_same; quiet; fail). apply validate_tells.
  Qed.
End Run.

(** ** The object the error is told for *)
Section Blame.
  Variables (view : addr -> res (nview addr)) (strx : addr -> pystr) (E : env) (voc : list akw).
  Hypothesis Tame : tame E.
  Hypothesis Hclean : forall a, clean (view a).
  (** nodes closed under going to members and elements *)
  Variable In_doc : addr -> Prop.
  Hypothesis Hmember : forall a w d k c, In_doc a -> view a = Ok w -> nv_val w = NObj d -> In (k, c) d -> In_doc c.
  Hypothesis Helem : forall a w l c, In_doc a -> view a = Ok w -> nv_val w = NArr l -> In c l -> In_doc c.
  Definition same_node (a b : addr) : Prop := a = b /\ In_doc a.
  Definition blamed (e : exn) : Prop := exists s, e = ENeeds s /\ In_doc s /\ compile view strx E voc s = Raise ESchemaParse.
  Lemma blamed_signal e : blamed e -> exists a, e = ENeeds a.
  Proof. intros (s & -> & _). eauto. Qed.
  Lemma refl_list (P : addr -> Prop) l : (forall c, In c l -> P c) -> Forall2 (fun a b => a = b /\ P a) l l.
  Proof. induction l as [|c l IH]; intro H; constructor; [split; [reflexivity|apply H; left; reflexivity]|]. apply IH. intros. apply H. right. assumption. Qed.
  Lemma same_full (stop : exn -> Prop) a b : same_node a b -> sim stop (fun w w' => rel_view same_node w w' /\ elems eq w w') (view a) (view b).
  Proof.
    intros [<- D]. destruct (view a) as [w|e|] eqn:G; [|apply si_raise; eapply Hclean, G|apply si_fuel]. apply si_ok. split.
    - split; [|reflexivity]. destruct (nv_val w) as [| | | |l|d] eqn:V; constructor.
      + apply refl_list. intros c I. eapply Helem; eassumption.
      + assert (K : forall k c, In (k, c) d -> In_doc c) by (intros; eapply Hmember; eassumption). clear -K. induction d as [|[k c] d IH]; constructor; [split; [reflexivity|split; [reflexivity|]]; eapply K; left; reflexivity|]. apply IH. intros. eapply K. right. eassumption.
    - intros l l' E1 E2. rewrite E1 in E2. injection E2 as <-. clear. induction l; constructor; auto.
  Qed.
  Lemma same_item a b : a = b -> item_str view strx a = item_str view strx b.
  Proof. intros ->. reflexivity. Qed.
  Lemma told_sim fuel : forall a b, same_node a b -> forall v c, sim blamed eq (validate_at view strx E voc fuel a v c) (validate view strx E voc fuel b v c).
  Proof.
    induction fuel as [|fuel IH]; intros a b H v c; cbn [validate_at validate]; [apply si_fuel|].
    eapply sim_bind with (P := Forall2 (member (rel_vobj same_node))).
    - pose proof (sim_compile blamed same_node view view strx strx E eq (same_full blamed) same_item voc a b H) as K. destruct H as [<- D].
      destruct (compile view strx E voc a) as [d|e|] eqn:G; cbn [told_at]; try exact K. destruct e; cbn [told_at]; try exact K. apply si_stop. exists a. auto.
    - intros d d' D. eapply sim_for_each; [exact D|]. intros [k o] [k' o'] [_ Ho]. eapply (sim_run blamed blamed_signal same_node view view E eq); [exact (same_full blamed)|exact Tame|exact IH|exact Ho].
  Qed.
  Lemma schema_clean fuel a v : In_doc a -> clean (schema_validate view strx E voc fuel a v).
  Proof.
    intros D e H. pose proof (schema_validate_sim (fun _ => False) (fun e F => match F with end) same_node view view strx strx E eq (same_full _) same_item Tame voc fuel a a (conj eq_refl D) v) as K.
    rewrite H in K. inversion K; subst; [assumption|contradiction].
  Qed.
  Theorem schema_blames fuel a v s : In_doc a -> schema_validate_at view strx E voc fuel a v = Raise (ENeeds s) -> In_doc s /\ compile view strx E voc s = Raise ESchemaParse.
  Proof.
    intros D H. unfold schema_validate_at in H. destruct (view a) as [w|e|] eqn:G; cbn [bind] in H; [|injection H as ->; exfalso; eapply (Hclean a); [exact G|reflexivity]|discriminate].
    destruct (nv_val w); try discriminate. pose proof (told_sim fuel a a (conj eq_refl D) v []) as K. rewrite H in K.
    remember (Raise (ENeeds s)) as r eqn:Er. destruct K as [x y|e P| |e r' S]; try discriminate Er; injection Er as ->; [exfalso; eapply P; reflexivity|]. destruct S as (s' & [= <-] & R). exact R.
  Qed.
End Blame.
