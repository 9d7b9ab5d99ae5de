(** Validation that stops at a schema node which cannot be read yet: whatever it
    had not stopped at, it sees as a validation that can read every node. *)
From Verif Require Import PyBase PyBaseFacts PyVal OrderFacts Errors Validators Keywords Parametric.
From Coq Require Import QArith.
Local Open Scope Z_scope.
Local Notation length := List.length (only parsing).

(** exceptions of the program: everything but the signal *)
Definition proper (e : exn) : Prop := forall a, e <> ENeeds a.
Definition clean {A} (r : res A) : Prop := forall e, r = Raise e -> proper e.
(** the functions from outside the package do not raise the signal *)
Record tame (E : env) : Prop := Tame {
  tame_fmt : forall name f v, fmt E name = Some f -> clean (f v);
  tame_dec : forall s, clean (dec_of_str E s)
}.

Lemma clean_ok {A} (a : A) : clean (Ok a).
Proof. intros e H. discriminate. Qed.
Lemma clean_fuel {A} : clean (@OutOfFuel A).
Proof. intros e H. discriminate. Qed.
Lemma clean_raise {A} e : proper e -> clean (@Raise A e).
Proof. intros H e' [= <-]. exact H. Qed.
Lemma clean_bind {A B} (r : res A) (k : A -> res B) : clean r -> (forall a, clean (k a)) -> clean (bind r k).
Proof. intros H K. destruct r as [a|e|]; cbn [bind]; [apply K|apply clean_raise, H; reflexivity|apply clean_fuel]. Qed.
Lemma clean_for_each {A} (f : A -> res unit) l : (forall a, clean (f a)) -> clean (for_each f l).
Proof. intro H. induction l as [|x l IH]; cbn [for_each]; [apply clean_ok|]. apply clean_bind; auto. Qed.
Ltac proper := let a := fresh in let H := fresh in intros a H; discriminate H.
Ltac clean := first [apply clean_ok|apply clean_fuel|apply clean_raise; proper].

Ltac split_clean :=
  repeat match goal with
  | |- clean (Ok _) => apply clean_ok
  | |- clean OutOfFuel => apply clean_fuel
  | |- clean (Raise _) => apply clean_raise; proper
  | |- clean (bind _ _) => apply clean_bind; [|intro]
  | |- clean (for_each _ _) => apply clean_for_each; intro
  | |- clean (match ?x with _ => _ end) => destruct x
  | |- clean (if ?x then _ else _) => destruct x
  end.
Lemma clean_scan fs t : forall i, clean (format_scan fs i t).
Proof.
  assert (Hlen : forall n t, (length t <= n)%nat -> forall i, clean (format_scan fs i t)).
  { induction n as [|n IH]; intros s Hs j.
    - destruct s; [|cbn in Hs; lia]. destruct j; cbn [format_scan]; split_clean.
    - assert (I : forall x acc, clean (get_integer acc x)) by (induction x as [|y x IHx]; intro acc; cbn [get_integer]; split_clean; apply IHx).
      assert (F : forall x, clean (field_outcome fs x)) by (intro x; unfold field_outcome; apply clean_bind; [unfold positional; destruct (first_part x); [clean|apply clean_bind; [apply I|intros; clean]]|intros i; split_clean]).
      destruct s as [|c s]; [destruct j; cbn [format_scan]; split_clean|]. cbn [length] in Hs. destruct j as [acc|]; cbn [format_scan].
      + destruct (_ =? _)%N; [split_clean|]. destruct (_ =? _)%N; [apply clean_bind; [apply F|intros _]; apply IH; lia|].
        destruct (goes_on c); [destruct (name_ends _ _); [apply clean_bind; [apply F|intros _; clean]|clean]|apply IH; lia].
      + destruct (_ =? _)%N; [|destruct (_ =? _)%N; [|apply IH; lia]].
        * destruct s as [|c' s]; [clean|]. cbn [length] in Hs. destruct (_ =? _)%N; [apply IH; lia|clean].
        * destruct s as [|c' s]; [clean|]. cbn [length] in Hs. destruct (_ =? _)%N; apply IH; cbn [length]; lia. }
  intro i. eapply Hlen. reflexivity.
Qed.
Lemma clean_verr {A} k p : clean (@raise_verr A k p).
Proof. unfold raise_verr. destruct (by_args k); [clean|]. apply clean_bind; [apply clean_scan|intros _; clean]. Qed.

Section Stop.
  (** where the interrupted validation stops *)
  Variable stop : exn -> Prop.
  Hypothesis stop_signal : forall e, stop e -> exists a, e = ENeeds a.

  Inductive sim {A B} (P : A -> B -> Prop) : res A -> res B -> Prop :=
  | si_ok a b : P a b -> sim P (Ok a) (Ok b)
  | si_raise e : proper e -> sim P (Raise e) (Raise e)
  | si_fuel : sim P OutOfFuel OutOfFuel
  | si_stop e r : stop e -> sim P (Raise e) r.
  Lemma sim_bind {A B A' B'} (P : A -> A' -> Prop) (Q : B -> B' -> Prop) r r' k k' :
    sim P r r' -> (forall a a', P a a' -> sim Q (k a) (k' a')) -> sim Q (bind r k) (bind r' k').
  Proof. intros H K. destruct H as [a b H|e H| |e r S]; cbn [bind]; [apply K, H|apply si_raise, H|apply si_fuel|apply si_stop, S]. Qed.
  Lemma sim_same {A} (r : res A) : clean r -> sim eq r r.
  Proof. intro C. destruct r; [apply si_ok; reflexivity|apply si_raise, C; reflexivity|apply si_fuel]. Qed.
  Lemma sim_try r r' : sim eq r r' -> sim eq (try_valid r) (try_valid r').
  Proof.
    destruct 1 as [a b ->|e H| |e r S].
    - apply si_ok. reflexivity.
    - destruct e; cbn; try (apply si_raise, H). apply si_ok. reflexivity.
    - apply si_fuel.
    - destruct (stop_signal e S) as (a & ->). cbn. apply si_stop, S.
  Qed.
  Lemma sim_map {A B A' B'} (P : A -> A' -> Prop) (Q : B -> B' -> Prop) f f' l l' :
    Forall2 P l l' -> (forall a a', P a a' -> sim Q (f a) (f' a')) -> sim (Forall2 Q) (map_res f l) (map_res f' l').
  Proof.
    intros F H. induction F as [|a a' l l' Ha F IH]; cbn [map_res]; [apply si_ok; constructor|].
    eapply sim_bind; [apply H, Ha|]. intros b b' Hb. eapply sim_bind; [exact IH|]. intros. apply si_ok. constructor; assumption.
  Qed.
  Lemma sim_for_each {A B} (P : A -> B -> Prop) (f : A -> res unit) (f' : B -> res unit) l l' :
    Forall2 P l l' -> (forall a a', P a a' -> sim eq (f a) (f' a')) -> sim eq (for_each f l) (for_each f' l').
  Proof. intros F H. induction F as [|a a' l l' Ha F IH]; cbn [for_each]; [apply si_ok; reflexivity|]. eapply sim_bind; [apply H, Ha|]. intros _ _ _. exact IH. Qed.

Section Rel.
  Context {N1 N2 : Type} (R : N1 -> N2 -> Prop).
  Notation rel_nval := (rel_nval R).
  Notation rel_view := (rel_view R).
  Notation rel_vobj := (rel_vobj R).
  Notation rel_objv := (rel_objv R).
  Notation rel_condv := (rel_condv R).
  Variables (view1 : N1 -> res (nview N1)) (view2 : N2 -> res (nview N2)).
  Variables (str1 : N1 -> pystr) (str2 : N2 -> pystr) (E : env).
  (** elements of arrays *)
  Variable Q : N1 -> N2 -> Prop.
  Definition elems (w : nview N1) (w' : nview N2) : Prop := forall l l', nv_val w = NArr l -> nv_val w' = NArr l' -> Forall2 Q l l'.
  Hypothesis Hfull : forall a b, R a b -> sim (fun w w' => rel_view w w' /\ elems w w') (view1 a) (view2 b).
  Hypothesis Hitem : forall a b, Q a b -> item_str view1 str1 a = item_str view2 str2 b.
  Hypothesis Tame : tame E.
  Lemma Hview a b : R a b -> sim rel_view (view1 a) (view2 b).
  Proof. intro H. destruct (Hfull a b H) as [w w' [W _]|e P| |e r S]; [apply si_ok, W|apply si_raise, P|apply si_fuel|apply si_stop, S]. Qed.

  Lemma sim_node v : forall a b, R a b -> sim eq (eq_node view1 v a) (eq_node view2 v b).
  Proof.
    induction v as [v Hl Hd|vs IH|d IH] using pv_ind_deep; intros a b Hab.
    - assert (E1 : forall N (view : N -> res (nview N)) n, eq_node view v n = bind (view n) (fun w => match nv_val w with
        | NNull => Ok (match v with VNone => true | _ => false end)
        | NStr s => Ok (match v with VStr t => str_eqb s t | _ => false end)
        | NBool b => match v with VBool b' => Ok (Bool.eqb b b') | _ => Raise EType end
        | NNum d => match v with
                    | VFloat f => Ok (Qeq_bool (dec_q d) (dec_q (frepr f)))
                    | VInt _ | VBool _ | VDec _ => Ok (opt_q_eqb (Some (dec_q d)) (num_q v))
                    | _ => Raise EType
                    end
        | _ => Ok false end)).
      { intros N view n. destruct v; try reflexivity; exfalso; [eapply Hl|eapply Hd]; reflexivity. }
      rewrite !E1. eapply sim_bind; [apply Hview, Hab|]. intros w w' [Hw _]. destruct Hw; apply sim_same; split_clean.
    - cbn [eq_node]. eapply sim_bind; [apply Hview, Hab|]. intros w w' [Hw _]. destruct Hw as [| | | |l l' F|]; try (apply sim_same; split_clean; fail); try (apply si_ok; reflexivity).
      rewrite (forall2_length _ _ _ F). destruct (Nat.eqb _ _); [|apply si_ok; reflexivity].
      revert vs IH. induction F as [|x y l l' Hx F IHF]; intros [|v vs] IH; try (apply si_ok; reflexivity). inversion IH as [|? ? I1 I2]; subst.
      eapply sim_bind; [apply I1, Hx|]. intros [|] ? <-; [apply IHF, I2|apply si_ok; reflexivity].
    - cbn [eq_node]. eapply sim_bind; [apply Hview, Hab|]. intros w w' [Hw _]. destruct Hw as [| | | | |m m' F]; try (apply sim_same; split_clean; fail); try (apply si_ok; reflexivity).
      rewrite (forall2_length _ _ _ F). destruct (Nat.eqb _ _); [|apply si_ok; reflexivity].
      assert (K : forall k, rel_opt (fun t t' => forall x y, R x y -> sim eq (t x) (t' y)) (dget k (map (fun '(k, x) => (k, eq_node view1 x)) d)) (dget k (map (fun '(k, x) => (k, eq_node view2 x)) d))).
      { intro k. clear -IH. induction IH as [|[k1 x] d I1 _ IHd]; cbn [map dget]; [constructor|]. destruct (str_eqb k k1); [constructor; exact I1|exact IHd]. }
      induction F as [|[k x] [k' y] m m' [Ek Hx] F IHF]; [apply si_ok; reflexivity|]. cbn [fst snd] in *. subst k'. destruct (K k) as [|t t' Ht]; [apply si_ok; reflexivity|].
      eapply sim_bind; [apply Ht, Hx|]. intros [|] ? <-; [exact IHF|apply si_ok; reflexivity].
  Qed.
  Lemma sim_raw x y v : rel_nval x y -> sim eq (eq_raw view1 x v) (eq_raw view2 y v).
  Proof.
    destruct 1 as [| | | |l l' F|m m' F]; try (apply si_ok; reflexivity); cbn [eq_raw].
    - destruct v as [| | | | | |vs|]; try (apply si_ok; reflexivity). rewrite (forall2_length _ _ _ F). destruct (Nat.eqb _ _); [|apply si_ok; reflexivity].
      revert vs. induction F as [|a b l l' Hx F IHF]; intros [|v vs]; try (apply si_ok; reflexivity). eapply sim_bind; [apply (sim_node v), Hx|]. intros [|] ? <-; [apply IHF|apply si_ok; reflexivity].
    - destruct v as [| | | | | | |items]; try (apply si_ok; reflexivity). rewrite (forall2_length _ _ _ F). destruct (Nat.eqb _ _); [|apply si_ok; reflexivity].
      induction F as [|[k a] [k' b] m m' [Ek Hx] F IHF]; [apply si_ok; reflexivity|]. cbn [fst snd] in *. subst k'. destruct (dget k items) as [v|]; [|apply si_ok; reflexivity].
      eapply sim_bind; [apply (sim_node v), Hx|]. intros [|] ? <-; [exact IHF|apply si_ok; reflexivity].
  Qed.
  Lemma sim_end (b : bool) k p : sim eq (if b then Ok tt else raise_verr k p) (if b then Ok tt else raise_verr k p).
  Proof. destruct b; [apply si_ok; reflexivity|apply sim_same, clean_verr]. Qed.
  Lemma sim_enum l l' v c : Forall2 rel_nval l l' -> sim eq (enum_validate view1 l v c) (enum_validate view2 l' v c).
  Proof.
    intro F. unfold enum_validate.
    replace (existsb is_nbool l') with (existsb is_nbool l) by (induction F as [|x y l l' Hx F IH]; cbn; [reflexivity|]; rewrite (rel_is_nbool _ _ _ Hx), IH; reflexivity).
    assert (K1 : sim eq (enum_tweak_loop view1 l v) (enum_tweak_loop view2 l' v)).
    { induction F as [|x y l l' Hx F IH]; cbn [enum_tweak_loop]; [apply si_ok; reflexivity|]. eapply sim_bind; [apply sim_raw, Hx|]. intros b ? <-. rewrite (rel_is_nbool _ _ _ Hx).
      destruct b; [|exact IH]. destruct (is_nbool y || is_bool v)%bool; [|apply si_ok; reflexivity]. destruct (is_nbool y && is_bool v)%bool; [apply si_ok; reflexivity|exact IH]. }
    assert (K2 : sim eq (enum_in view1 l v) (enum_in view2 l' v)).
    { clear K1. induction F as [|x y l l' Hx F IH]; cbn [enum_in]; [apply si_ok; reflexivity|]. eapply sim_bind; [apply sim_raw, Hx|]. intros b ? <-. destruct b; [apply si_ok; reflexivity|exact IH]. }
    cbv zeta. destruct (is_bool v && negb (existsb is_nbool l))%bool; [apply sim_same, clean_verr|]. eapply sim_bind; [|intros b ? <-; apply sim_end]. destruct (_ || _)%bool; assumption.
  Qed.
  Lemma sim_const x y v c : rel_nval x y -> sim eq (const_validate view1 x v c) (const_validate view2 y v c).
  Proof. intro H. unfold const_validate. rewrite (rel_is_nbool _ _ _ H). destruct (_ && _)%bool; [apply sim_same, clean_verr|]. eapply sim_bind; [apply sim_raw, H|]. intros b ? <-. apply sim_end. Qed.

  Section Run.
    Variables (rec1 : N1 -> pv -> ctx -> res unit) (rec2 : N2 -> pv -> ctx -> res unit).
    Hypothesis Hrec : forall a b, R a b -> forall v c, sim eq (rec1 a v c) (rec2 b v c).
    Lemma sim_pattern l l' k x c : Forall2 (member R) l l' -> forall b, sim eq (pattern_loop E rec1 l k x c b) (pattern_loop E rec2 l' k x c b).
    Proof.
      induction 1 as [|[p n] [p' n'] l l' [Ep Hn] F IH]; intro b; [apply si_ok; reflexivity|]. cbn [pattern_loop fst snd] in *. subst p'. destruct (re_ok E p); [|apply si_raise; proper].
      destruct (re_search E p k); [|apply IH]. eapply sim_bind; [apply Hrec, Hn|]. intros _ _ _. apply IH.
    Qed.
    Lemma sim_member o o' c kx : rel_objv o o' -> sim eq (member_validate E rec1 o c kx) (member_validate E rec2 o' c kx).
    Proof.
      intros [H1 H2 H3 H4 H5]. destruct kx as [k x]. unfold member_validate. rewrite H4. eapply sim_bind with (P := eq); [destruct H5; [apply si_ok; reflexivity|apply Hrec; assumption]|]. intros _ _ _.
      destruct (member_get R _ _ k H1) as [|n n' Hn]; [|apply Hrec, Hn].
      eapply sim_bind with (P := eq); [destruct H3; [apply si_ok; reflexivity|apply sim_pattern; assumption]|]. intros b ? <-. destruct b; [apply si_ok; reflexivity|].
      destruct H2 as [|s s' [|n n' Hn]]; cbn [run_sub]; [destruct (ov_uneval o'); [apply sim_same, clean_verr|apply si_ok; reflexivity]|apply sim_same, clean_verr|apply Hrec, Hn].
    Qed.
    Lemma sim_prefix lf ps ps' vals c : Forall2 R ps ps' -> forall i, sim eq (prefix_loop rec1 lf ps vals i c) (prefix_loop rec2 lf ps' vals i c).
    Proof.
      intro F. induction lf as [|lf IH]; intro i; [apply si_fuel|]. cbn [prefix_loop]. destruct (forall2_nth _ _ _ F i) as [|a b Hab]; [apply si_ok; reflexivity|].
      destruct (nth_error vals i); (eapply sim_bind; [apply Hrec, Hab|]; intros _ _ _; apply IH).
    Qed.
    Lemma sim_items n n' c : R n n' -> forall vals i, sim eq (items_loop rec1 n vals i c) (items_loop rec2 n' vals i c).
    Proof. intro H. induction vals as [|x vals IH]; intro i; [apply si_ok; reflexivity|]. cbn [items_loop]. eapply sim_bind; [apply Hrec, H|]. intros _ _ _. apply IH. Qed.
    Lemma sim_count n n' : R n n' -> forall l, sim eq (count_valid rec1 n l) (count_valid rec2 n' l).
    Proof. intro H. induction l as [|x l IH]; [apply si_ok; reflexivity|]. cbn [count_valid]. eapply sim_bind; [apply sim_try, Hrec, H|]. intros r ? <-. eapply sim_bind; [exact IH|]. intros k ? <-. apply si_ok. reflexivity. Qed.
    Lemma sim_anyof l l' v c : Forall2 R l l' -> forall last, sim eq (anyof_loop rec1 l v c last) (anyof_loop rec2 l' v c last).
    Proof.
      induction 1 as [|a b l l' H F IH]; intro last; [apply sim_same; cbn [anyof_loop]; split_clean|]. cbn [anyof_loop]. eapply sim_bind; [apply sim_try, Hrec, H|]. intros [e|] ? <-; [apply IH|apply si_ok; reflexivity].
    Qed.
    Lemma sim_oneof l l' v c : Forall2 R l l' -> forall k last, sim eq (oneof_loop rec1 l v c k last) (oneof_loop rec2 l' v c k last).
    Proof.
      induction 1 as [|a b l l' H F IH]; intros k last; [apply sim_same; cbn [oneof_loop]; split_clean; apply clean_verr|]. cbn [oneof_loop]. eapply sim_bind; [apply sim_try, Hrec, H|]. intros [e|] ? <-; apply IH.
    Qed.
    Lemma clean_unique c l : forall seen i, clean (unique_loop seen i l c).
    Proof. induction l as [|x l IH]; intros seen i; cbn [unique_loop]; [clean|]. destruct (hashable x); [|clean]. destruct (existsb _ seen); [apply clean_verr|apply IH]. Qed.
    Lemma sim_run lf o o' v c : rel_vobj o o' -> sim eq (run_vobj view1 E rec1 lf o v c) (run_vobj view2 E rec2 lf o' v c).
    Proof.
      destruct 1; cbn [run_vobj].
      all: try (apply sim_same; unfold type_validate, maximum_validate, minimum_validate, min_len_validate, max_len_validate, required_validate, dep_required_validate, pattern_validate, py_le_dec, py_lt_dec, py_ge_dec, py_gt_dec, py_len, py_contains; split_clean; apply clean_verr).
      - apply sim_enum; assumption.
      - apply sim_const; assumption.
      - apply sim_same. unfold multiple_of_validate, dec_of_value, dec_rem_is_zero. destruct Tame as [_ T]. split_clean; try apply clean_verr. apply T.
      - apply sim_same. unfold format_validate. destruct (fmt E n) as [f|] eqn:Ef; [|clean]. apply clean_bind; [exact (tame_fmt E Tame _ _ _ Ef)|]. intros [|]; [clean|apply clean_verr].
      - destruct v as [| | | | | | |items]; try (apply si_ok; reflexivity). cbn [object_validate]. apply (sim_for_each eq); [clear; induction items; constructor; auto|]. intros kx ? <-. apply sim_member; assumption.
      - destruct v; try (apply si_ok; reflexivity). cbn [dep_schemas_validate]. eapply sim_for_each; [eassumption|]. intros [k n] [k' n'] [Ek Hn]. cbn [fst snd] in *. subst k'. destruct (dmem k d); [apply Hrec, Hn|apply si_ok; reflexivity].
      - destruct v; try (apply sim_same, clean_verr). unfold array_validate.
        eapply sim_bind with (P := eq).
        { destruct H0 as [|ps ps' F]; [apply si_ok; reflexivity|]. destruct F as [|a b ps ps' Hab F]; [apply si_ok; reflexivity|]. apply sim_prefix. constructor; assumption. }
        intros k ? <-. destruct H; [apply si_ok; reflexivity|]. apply sim_items. assumption.
      - unfold contains_validate. eapply sim_bind; [apply (sim_same (py_iter v)); unfold py_iter; split_clean|]. intros l ? <-. eapply sim_bind; [apply (sim_count _ _ H)|]. intros k ? <-. apply sim_same. split_clean; apply clean_verr.
      - apply sim_same. unfold unique_validate. apply clean_bind; [unfold py_iter; split_clean|]. intro l. apply clean_unique.
      - eapply sim_for_each; [eassumption|]. intros. apply Hrec. assumption.
      - apply sim_anyof. assumption.
      - apply sim_oneof. assumption.
      - unfold not_validate. eapply sim_bind; [apply sim_try, Hrec, H|]. intros [e|] ? <-; [apply si_ok; reflexivity|apply sim_same, clean_verr].
      - destruct H as [H1 H2 H3]. unfold cond_validate. destruct H1 as [|i i' Hi]; [apply si_ok; reflexivity|]. eapply sim_bind; [apply sim_try, Hrec, Hi|]. intros [e|] ? <-.
        + destruct H3; [apply si_raise; proper|]. apply Hrec. assumption.
        + destruct H2; [apply si_ok; reflexivity|]. apply Hrec. assumption.
    Qed.
  End Run.
  Ltac cs := first [apply si_raise; proper|apply si_fuel|constructor].
  Notation data_rel := (Forall2 (member rel_vobj)).
  Lemma sim_opnd it it' k : Forall2 (member R) it it' -> sim rel_view (opnd view1 it k) (opnd view2 it' k).
  Proof. intro F. unfold opnd. destruct (member_get R it it' k F) as [|a b H]; [cs|apply Hview, H]. Qed.
  Lemma sim_opnd_full it it' k : Forall2 (member R) it it' -> sim (fun w w' => rel_view w w' /\ elems w w') (opnd view1 it k) (opnd view2 it' k).
  Proof. intro F. unfold opnd. destruct (member_get R it it' k F) as [|a b H]; [cs|apply Hfull, H]. Qed.
  Lemma sim_opnd_node it it' k : Forall2 (member R) it it' -> sim R (opnd_node it k) (opnd_node it' k).
  Proof. intro F. unfold opnd_node. destruct (member_get R it it' k F) as [|a b H]; cs. exact H. Qed.
  Lemma sim_as_num w w' : rel_view w w' -> sim eq (as_num w) (as_num w').
  Proof. intros [H E0]. unfold as_num. rewrite E0. destruct H; try cs. destruct (nv_ref w'); cs. reflexivity. Qed.
  Lemma sim_as_str w w' : rel_view w w' -> sim eq (as_str w) (as_str w').
  Proof. intros [H E0]. unfold as_str. rewrite E0. destruct H; try cs. destruct (nv_ref w'); cs. reflexivity. Qed.
  Lemma sim_as_arr w w' : rel_view w w' -> sim (Forall2 R) (as_arr w) (as_arr w').
  Proof. intros [H E0]. unfold as_arr. rewrite E0. destruct H; try cs. destruct (nv_ref w'); cs. assumption. Qed.
  Lemma sim_as_arr_full w w' : rel_view w w' -> elems w w' -> sim (Forall2 Q) (as_arr w) (as_arr w').
  Proof. intros [H E0] Wq. unfold as_arr, elems in *. rewrite E0. destruct H; try cs. destruct (nv_ref w'); cs. apply Wq; reflexivity. Qed.
  Lemma sim_as_obj w w' : rel_view w w' -> sim (Forall2 (member R)) (as_obj w) (as_obj w').
  Proof. intros [H E0]. unfold as_obj. destruct H; try cs. assumption. Qed.
  Lemma rel_item_strs l l' : Forall2 Q l l' -> map (item_str view1 str1) l = map (item_str view2 str2) l'.
  Proof. induction 1 as [|a b l l' H F IH]; cbn; [reflexivity|]. rewrite (Hitem _ _ H), IH. reflexivity. Qed.
  Lemma sim_iter_strs a b : R a b -> sim eq (iter_strs view1 str1 a) (iter_strs view2 str2 b).
  Proof.
    intro H. unfold iter_strs. eapply sim_bind; [apply Hfull, H|]. intros w w' [[V1 V2] Wq]. rewrite V2. destruct (nv_ref w'); [cs|]. unfold elems in Wq. revert Wq. destruct V1; intro Wq; try cs; [reflexivity|apply rel_item_strs, Wq; reflexivity|eapply member_keys; eassumption].
  Qed.
  Lemma sim_get_objv d d' : data_rel d d' -> sim rel_objv (get_objv d) (get_objv d').
  Proof.
    intro F. unfold get_objv. destruct (member_get _ _ _ (u "properties") F) as [|o o' H]; [cs; cs; cs|]. destruct H; try cs. assumption.
  Qed.
  Lemma rel_put_objv d d' o o' : data_rel d d' -> rel_objv o o' -> data_rel (put_objv d o) (put_objv d' o').
  Proof. intros F H. apply member_set; [exact F|cs; exact H]. Qed.
  Lemma sim_get_condv d d' : data_rel d d' -> sim rel_condv (get_condv d) (get_condv d').
  Proof.
    intro F. unfold get_condv. destruct (member_get _ _ _ (u "if") F) as [|o o' H]; [cs; cs; cs|]. destruct H; try cs. assumption.
  Qed.
  Lemma rel_put_condv d d' o o' : data_rel d d' -> rel_condv o o' -> data_rel (put_condv d o) (put_condv d' o').
  Proof. intros F H. apply member_set; [exact F|cs; exact H]. Qed.
  Lemma sim_flag it it' k : Forall2 (member R) it it' -> sim eq (exclusive_flag view1 it k) (exclusive_flag view2 it' k).
  Proof.
    intro F. unfold exclusive_flag. rewrite (member_mem R it it' k F). destruct (dmem k it'); [|cs; reflexivity]. eapply sim_bind; [apply sim_opnd, F|].
    intros w w' [V _]. cs. unfold eq_true. destruct V; reflexivity.
  Qed.
  Lemma sim_bound it it' k : Forall2 (member R) it it' -> sim eq (opt_bound view1 it k) (opt_bound view2 it' k).
  Proof.
    intro F. unfold opt_bound. rewrite (member_mem R it it' k F). destruct (dmem k it'); [|cs; reflexivity]. eapply sim_bind; [apply sim_opnd, F|].
    intros w w' V. eapply sim_bind; [apply sim_as_num, V|]. intros ? ? ->. cs. reflexivity.
  Qed.
  Lemma sim_enum_item a b : R a b -> sim rel_nval (enum_item view1 a) (enum_item view2 b).
  Proof. intro H. unfold enum_item. eapply sim_bind; [apply Hview, H|]. intros w w' [V1 V2]. rewrite V2. destruct (nv_ref w'); cs. exact V1. Qed.
  Lemma rel_is_true w w' : rel_view w w' -> is_true w = is_true w'.
  Proof. intros [V _]. unfold is_true. destruct V; reflexivity. Qed.

  Lemma rel_put k o o' d d' : data_rel d d' -> rel_vobj o o' -> data_rel (put k o d) (put k o' d').
  Proof. intros. apply member_set; assumption. Qed.
  Local Hint Resolve rel_put rel_put_objv rel_put_condv : rel.
  Ltac objv H := destruct H as [? ? ? ? ?]; cs; cbn; auto; try cs; auto.
  Lemma rel_fold m m' : Forall2 (member R) m m' -> forall d d', Forall2 (member R) d d' ->
    Forall2 (member R) (fold_left (fun acc kn => dset (fst kn) (snd kn) acc) m d) (fold_left (fun acc kn => dset (fst kn) (snd kn) acc) m' d').
  Proof.
    induction 1 as [|[k a] [k' b] m m' [Ek H] F IH]; intros d d' Fd; [exact Fd|]. cbn [fold_left fst snd] in *. subst k'. apply IH. apply member_set; assumption.
  Qed.

  Lemma sim_apply k it it' d d' : Forall2 (member R) it it' -> data_rel d d' -> sim data_rel (apply view1 str1 E k it d) (apply view2 str2 E k it' d').
  Proof.
    intros F D. unfold apply. eapply sim_bind; [apply sim_opnd_full, F|]. intros w w' [W Wq]. eapply sim_bind; [apply sim_opnd_node, F|]. intros n n' Hn. pose proof W as [V Er].
    destruct k.
    all: try (eapply sim_bind; [first [apply sim_as_arr, W|apply sim_as_num, W]|]; intros ? ? Hl; try subst; cs; apply rel_put; [exact D|cs; auto]; fail).
    all: try (eapply sim_bind; [apply sim_as_obj, W|]; intros m m' Hm; cs; apply rel_put; [exact D|cs; auto]; fail).
    - (* additionalProperties *)
      destruct V as [|[|]| | | |]; try cs; (eapply sim_bind; [apply sim_get_objv, D|]; intros o o' Ho; cs; apply rel_put_objv; [exact D|]); [exact Ho|objv Ho|objv Ho]; cs; exact Hn.
    - (* const *)
      rewrite Er. destruct V; try cs; destruct (nv_ref w'); cs; apply rel_put; auto; repeat cs.
    - (* contains *)
      eapply sim_bind; [apply sim_as_obj, W|]. intros _ _ _. eapply sim_bind; [apply sim_bound, F|]. intros mn ? <-. eapply sim_bind; [apply sim_bound, F|]. intros mx ? <-. cs. apply rel_put; [exact D|cs; exact Hn].
    - (* dependentRequired *)
      eapply sim_bind; [apply sim_as_obj, W|]. intros m m' Hm.
      eapply sim_bind with (P := eq); [|intros l ? <-; cs; apply rel_put; [exact D|cs]].
      assert (K : sim (Forall2 eq) (map_res (fun '(key, x) => s <- iter_strs view1 str1 x;; Ok (key, s)) m) (map_res (fun '(key, x) => s <- iter_strs view2 str2 x;; Ok (key, s)) m')).
      { eapply sim_map; [exact Hm|]. intros [k a] [k' b] [Ek H]. cbn [fst snd] in *. subst k'. eapply sim_bind; [apply sim_iter_strs, H|]. intros s ? <-. cs. reflexivity. }
      destruct K as [l l' K|e He| |e r S]; [cs|cs; exact He|cs|apply si_stop, S]. induction K; congruence.
    - (* else *)
      eapply sim_bind; [apply sim_as_obj, W|]. intros _ _ _. eapply sim_bind; [apply sim_get_condv, D|]. intros o o' [H1 H2 H3]. cs. apply rel_put_condv; [exact D|]. cs; cbn; auto. cs; exact Hn.
    - (* enum *)
      destruct V as [| | | |l l' Fl|]; try cs. eapply sim_bind; [eapply sim_map; [exact Fl|apply sim_enum_item]|]. intros x x' Hx. cs. apply rel_put; [exact D|cs; exact Hx].
    - (* exclusiveMaximum *)
      rewrite (member_mem R it it' _ F).
      assert (K : sim data_rel (m <- as_num w;; Ok (put KwExclusiveMaximum (VMaximum m true) d)) (m <- as_num w';; Ok (put KwExclusiveMaximum (VMaximum m true) d'))).
      { eapply sim_bind; [apply sim_as_num, W|]. intros m ? <-. cs. apply rel_put; [exact D|cs]. }
      destruct V; try exact K. destruct (dmem _ it'); cs. exact D.
    - (* exclusiveMinimum *)
      rewrite (member_mem R it it' _ F).
      assert (K : sim data_rel (m <- as_num w;; Ok (put KwExclusiveMinimum (VMinimum m true) d)) (m <- as_num w';; Ok (put KwExclusiveMinimum (VMinimum m true) d'))).
      { eapply sim_bind; [apply sim_as_num, W|]. intros m ? <-. cs. apply rel_put; [exact D|cs]. }
      destruct V; try exact K. destruct (dmem _ it'); cs. exact D.
    - (* format *)
      eapply sim_bind; [apply sim_as_str, W|]. intros f ? <-. destruct (fmt E f); cs. apply rel_put; [exact D|cs].
    - (* if *)
      eapply sim_bind; [apply sim_as_obj, W|]. intros _ _ _. eapply sim_bind; [apply sim_get_condv, D|]. intros o o' [H1 H2 H3]. cs. apply rel_put_condv; [exact D|]. cs; cbn; auto. cs; exact Hn.
    - (* items *)
      rewrite Er.
      assert (K : sim (fun a b => rel_opt R (fst a) (fst b) /\ rel_opt (Forall2 R) (snd a) (snd b))
        match dget (kw_key KwItems) d with None => Ok (None, None) | Some (VArray it0 pre) => Ok (it0, pre) | Some _ => Raise EUnmodelled end
        match dget (kw_key KwItems) d' with None => Ok (None, None) | Some (VArray it0 pre) => Ok (it0, pre) | Some _ => Raise EUnmodelled end).
      { destruct (member_get _ _ _ (kw_key KwItems) D) as [|o o' H]; [cs; split; cs|]. destruct H; try cs. split; assumption. }
      destruct V as [| | | |l l' Fl|m m' Fm]; try (apply si_raise; proper); (eapply sim_bind; [exact K|]; intros [i1 p1] [i2 p2] [H1 H2]; cbn [fst snd] in *).
      + cs. apply rel_put; [exact D|]. rewrite <- (rel_is_true _ _ W). cs; [|exact H2]. destruct (is_true w); [exact H1|cs; exact Hn].
      + destruct (nv_ref w'); [cs|]. rewrite (member_mem R it it' _ F). destruct (dmem _ it').
        * eapply sim_bind; [apply sim_opnd, F|]. intros wa wa' Wa. eapply sim_bind; [apply sim_opnd_node, F|]. intros na na' Hna. cs. apply rel_put; [exact D|]. rewrite <- (rel_is_true _ _ Wa). cs; [|cs; exact Fl].
          destruct (is_true wa); [exact H1|cs; exact Hna].
        * cs. apply rel_put; [exact D|]. cs; [exact H1|cs; exact Fl].
      + cs. apply rel_put; [exact D|]. rewrite <- (rel_is_true _ _ W). cs; [|exact H2]. destruct (is_true w); [exact H1|cs; exact Hn].
    - (* maximum *)
      eapply sim_bind; [apply sim_as_num, W|]. intros m ? <-. eapply sim_bind; [apply sim_flag, F|]. intros b ? <-. cs. apply rel_put; [exact D|cs].
    - (* minimum *)
      eapply sim_bind; [apply sim_as_num, W|]. intros m ? <-. eapply sim_bind; [apply sim_flag, F|]. intros b ? <-. cs. apply rel_put; [exact D|cs].
    - (* pattern *)
      eapply sim_bind; [apply sim_as_str, W|]. intros f ? <-. destruct (re_ok E f); cs. apply rel_put; [exact D|cs].
    - (* patternProperties *)
      eapply sim_bind; [apply sim_as_obj, W|]. intros m m' Hm. eapply sim_bind; [apply sim_get_objv, D|]. intros o o' Ho. cs. apply rel_put_objv; [exact D|]. objv Ho.
    - (* prefixItems *)
      eapply sim_bind; [apply sim_as_arr, W|]. intros l l' Hl. rewrite (member_mem _ _ _ (u "items") D).
      eapply sim_bind with (P := fun a b => rel_opt R (fst a) (fst b) /\ rel_opt (Forall2 R) (snd a) (snd b)).
      + destruct (dmem (u "items") d'); [|cs; split; cs]. destruct (member_get _ _ _ (kw_key KwPrefixItems) D) as [|o o' H]; [cs|]. destruct H; try cs. split; assumption.
      + intros [i1 p1] [i2 p2] [H1 H2]. cbn [fst snd] in *. cs. apply rel_put; [exact D|]. cs; [exact H1|cs; exact Hl].
    - (* properties *)
      eapply sim_bind; [apply sim_as_obj, W|]. intros m m' Hm. eapply sim_bind; [apply sim_get_objv, D|]. intros o o' Ho. cs. apply rel_put_objv; [exact D|]. destruct Ho as [? ? ? ? ?]. cs; cbn; auto. apply rel_fold; assumption.
    - (* propertyNames *)
      eapply sim_bind; [apply sim_as_obj, W|]. intros m m' Hm. eapply sim_bind; [apply sim_get_objv, D|]. intros o o' Ho. cs. apply rel_put_objv; [exact D|]. objv Ho.
    - (* required *)
      eapply sim_bind; [apply sim_as_arr_full; assumption|]. intros l l' Hl. cs. apply rel_put; [exact D|]. rewrite (rel_item_strs _ _ Hl). cs.
    - (* then *)
      eapply sim_bind; [apply sim_as_obj, W|]. intros _ _ _. eapply sim_bind; [apply sim_get_condv, D|]. intros o o' [H1 H2 H3]. cs. apply rel_put_condv; [exact D|]. cs; cbn; auto. cs; exact Hn.
    - (* type *)
      rewrite Er. eapply sim_bind with (P := eq).
      + unfold elems in Wq. revert Wq. destruct V as [| | | |l l' Fl|]; intro Wq; try cs; destruct (nv_ref w'); cs; [reflexivity|apply rel_item_strs, Wq; reflexivity].
      + intros ts ? <-. destruct (forallb _ ts); cs. apply rel_put; [exact D|cs].
    - (* unevaluatedProperties *)
      destruct V; try cs. eapply sim_bind; [apply sim_get_objv, D|]. intros o o' Ho. cs. apply rel_put_objv; [exact D|]. destruct Ho as [? ? ? Hu ?]. cs; cbn; auto. rewrite Hu. reflexivity.
    - (* uniqueItems *)
      destruct V as [|[|]| | | |]; cs; [|exact D]. apply rel_put; [exact D|cs].
  Qed.

  Lemma sim_can_apply w w' k : rel_view w w' -> sim eq (can_apply view1 w k) (can_apply view2 w' k).
  Proof.
    intros [V _]. unfold can_apply. destruct V as [| | | |l l' F|m m' F]; try cs; try reflexivity.
    - induction F as [|a b l l' H F IH]; cbn [arr_contains_str]; [cs; reflexivity|]. eapply sim_bind; [apply (sim_node (VStr k)), H|]. intros [|] ? <-; [cs; reflexivity|exact IH].
    - eapply member_mem, F.
  Qed.
  Lemma sim_kws voc w w' : rel_view w w' -> forall d d', data_rel d d' -> sim data_rel (run_kws view1 str1 E w voc d) (run_kws view2 str2 E w' voc d').
  Proof.
    intro W. induction voc as [|k voc IH]; intros d d' D; cbn [run_kws]; [cs; exact D|]. eapply sim_bind; [|exact (fun d d' D => IH d d' D)].
    unfold step_kw. eapply sim_bind; [apply sim_can_apply, W|]. intros b ? <-. destruct b; [|cs; exact D]. destruct W as [V _]. destruct V; try cs. apply sim_apply; assumption.
  Qed.
  Lemma sim_compile voc a b : R a b -> sim data_rel (compile view1 str1 E voc a) (compile view2 str2 E voc b).
  Proof.
    intro H. unfold compile. eapply sim_bind; [apply Hview, H|]. intros w w' W.
    assert (K : sim data_rel (run_kws view1 str1 E w voc []) (run_kws view2 str2 E w' voc [])) by (apply sim_kws; [exact W|cs]).
    destruct W as [V _]. destruct V as [|[|]| | | |]; try exact K; cs; repeat cs.
  Qed.

  Theorem validate_sim voc fuel : forall a b, R a b -> forall v c, sim eq (validate view1 str1 E voc fuel a v c) (validate view2 str2 E voc fuel b v c).
  Proof.
    induction fuel as [|fuel IH]; intros a b H v c; cbn [validate]; [apply si_fuel|]. eapply sim_bind; [apply sim_compile, H|]. intros d d' D.
    eapply sim_for_each; [exact D|]. intros [k o] [k' o'] [_ Ho]. apply sim_run; [exact IH|exact Ho].
  Qed.
  Theorem schema_validate_sim voc fuel a b : R a b -> forall v, sim eq (schema_validate view1 str1 E voc fuel a v) (schema_validate view2 str2 E voc fuel b v).
  Proof.
    intros H v. unfold schema_validate. eapply sim_bind; [apply Hview, H|]. intros w w' [V _]. destruct V; try (apply si_ok; reflexivity). apply validate_sim, H.
  Qed.
End Rel.
End Stop.
