(** Validation sees a schema only through what its nodes show: two schema
    graphs whose related nodes show the same give the same outcomes. *)
From Verif Require Import PyBase PyBaseFacts PyVal OrderFacts Errors Validators Keywords.
From Coq Require Import QArith.
Local Open Scope Z_scope.
Local Notation length := List.length (only parsing).

Inductive rel_res {A B} (P : A -> B -> Prop) : res A -> res B -> Prop :=
| rr_ok a b : P a b -> rel_res P (Ok a) (Ok b)
| rr_raise e : rel_res P (Raise e) (Raise e)
| rr_fuel : rel_res P OutOfFuel OutOfFuel.
Lemma rel_bind {A B A' B'} (P : A -> A' -> Prop) (Q : B -> B' -> Prop) r r' k k' :
  rel_res P r r' -> (forall a a', P a a' -> rel_res Q (k a) (k' a')) -> rel_res Q (bind r k) (bind r' k').
Proof. intros H K. destruct H as [a b H| |]; cbn [bind]; [apply K, H|constructor|constructor]. Qed.
Lemma rel_eq {A} (r r' : res A) : rel_res eq r r' -> r = r'.
Proof. destruct 1; congruence. Qed.
Lemma eq_rel {A} (r : res A) : rel_res eq r r.
Proof. destruct r; constructor; reflexivity. Qed.

Definition member {A B} (R : A -> B -> Prop) (x : pystr * A) (y : pystr * B) : Prop := fst x = fst y /\ R (snd x) (snd y).
Inductive rel_opt {A B} (R : A -> B -> Prop) : option A -> option B -> Prop :=
| ro_none : rel_opt R None None
| ro_some a b : R a b -> rel_opt R (Some a) (Some b).

Lemma member_get {A B} (R : A -> B -> Prop) d d' k : Forall2 (member R) d d' -> rel_opt R (dget k d) (dget k d').
Proof. induction 1 as [|[k1 a] [k2 b] d d' [E H] _ IH]; cbn [dget fst snd] in *; [constructor|]. subst k2. destruct (str_eqb k k1); [constructor; exact H|exact IH]. Qed.
Lemma member_mem {A B} (R : A -> B -> Prop) d d' k : Forall2 (member R) d d' -> dmem k d = dmem k d'.
Proof. intro F. unfold dmem. destruct (member_get R d d' k F); reflexivity. Qed.
Lemma member_keys {A B} (R : A -> B -> Prop) d d' : Forall2 (member R) d d' -> dkeys d = dkeys d'.
Proof. unfold dkeys. induction 1 as [|[k1 a] [k2 b] d d' [E H] _ IH]; cbn [map fst] in *; congruence. Qed.
Lemma member_set {A B} (R : A -> B -> Prop) d d' k a b : Forall2 (member R) d d' -> R a b -> Forall2 (member R) (dset k a d) (dset k b d').
Proof.
  intros F H. induction F as [|[k1 a1] [k2 b1] d d' [E H1] F IH]; cbn [dset fst snd] in *; [repeat constructor; exact H|]. subst k2.
  destruct (str_eqb k k1); constructor; auto; split; auto.
Qed.
Lemma forall2_length {A B} (R : A -> B -> Prop) l l' : Forall2 R l l' -> length l = length l'.
Proof. induction 1; cbn; congruence. Qed.
Lemma forall2_nth {A B} (R : A -> B -> Prop) l l' : Forall2 R l l' -> forall i, rel_opt R (nth_error l i) (nth_error l' i).
Proof. induction 1 as [|a b l l' H F IH]; intros [|i]; cbn; [constructor|constructor|constructor; exact H|apply IH]. Qed.
Lemma rel_map {A B A' B'} (P : A -> A' -> Prop) (Q : B -> B' -> Prop) f f' l l' :
  Forall2 P l l' -> (forall a a', P a a' -> rel_res Q (f a) (f' a')) -> rel_res (Forall2 Q) (map_res f l) (map_res f' l').
Proof.
  intros F H. induction F as [|a a' l l' Ha F IH]; cbn [map_res]; [constructor; constructor|].
  eapply rel_bind; [apply H, Ha|]. intros b b' Hb. eapply rel_bind; [exact IH|]. intros. constructor. constructor; assumption.
Qed.
Lemma rel_for_each {A B} (P : A -> B -> Prop) (f : A -> res unit) (f' : B -> res unit) l l' :
  Forall2 P l l' -> (forall a a', P a a' -> f a = f' a') -> for_each f l = for_each f' l'.
Proof. intros F H. induction F as [|a a' l l' Ha F IH]; cbn [for_each]; [reflexivity|]. rewrite (H _ _ Ha), IH. reflexivity. Qed.

Section Rel.
  Context {N1 N2 : Type} (R : N1 -> N2 -> Prop).
  Inductive rel_nval : nval N1 -> nval N2 -> Prop :=
  | rn_null : rel_nval NNull NNull
  | rn_bool b : rel_nval (NBool b) (NBool b)
  | rn_num d : rel_nval (NNum d) (NNum d)
  | rn_str s : rel_nval (NStr s) (NStr s)
  | rn_arr l l' : Forall2 R l l' -> rel_nval (NArr l) (NArr l')
  | rn_obj d d' : Forall2 (member R) d d' -> rel_nval (NObj d) (NObj d').
  Definition rel_view (w : nview N1) (w' : nview N2) : Prop := rel_nval (nv_val w) (nv_val w') /\ nv_ref w = nv_ref w'.
  Inductive rel_sub : sub N1 -> sub N2 -> Prop :=
  | rs_fail : rel_sub SFail SFail
  | rs_lazy a b : R a b -> rel_sub (SLazy a) (SLazy b).
  Record rel_objv (o : objv N1) (o' : objv N2) : Prop := RelObjv {
    rv_data : Forall2 (member R) (ov_data o) (ov_data o');
    rv_addl : rel_opt rel_sub (ov_addl o) (ov_addl o');
    rv_pat : rel_opt (Forall2 (member R)) (ov_pat o) (ov_pat o');
    rv_uneval : ov_uneval o = ov_uneval o';
    rv_names : rel_opt R (ov_names o) (ov_names o')
  }.
  Record rel_condv (o : condv N1) (o' : condv N2) : Prop := RelCondv {
    rc_if : rel_opt R (cv_if o) (cv_if o'); rc_then : rel_opt R (cv_then o) (cv_then o'); rc_else : rel_opt R (cv_else o) (cv_else o')
  }.
  Inductive rel_vobj : vobj N1 N1 -> vobj N2 N2 -> Prop :=
  | v_fail : rel_vobj VFail VFail
  | v_type ts : rel_vobj (VType ts) (VType ts)
  | v_enum l l' : Forall2 rel_nval l l' -> rel_vobj (VEnum l) (VEnum l')
  | v_const x x' : rel_nval x x' -> rel_vobj (VConst x) (VConst x')
  | v_max d b : rel_vobj (VMaximum d b) (VMaximum d b)
  | v_min d b : rel_vobj (VMinimum d b) (VMinimum d b)
  | v_mul d : rel_vobj (VMultipleOf d) (VMultipleOf d)
  | v_minlen n : rel_vobj (VMinLength n) (VMinLength n)
  | v_maxlen n : rel_vobj (VMaxLength n) (VMaxLength n)
  | v_format n : rel_vobj (VFormat n) (VFormat n)
  | v_pattern n : rel_vobj (VPattern n) (VPattern n)
  | v_required n : rel_vobj (VRequired n) (VRequired n)
  | v_minprops n : rel_vobj (VMinProps n) (VMinProps n)
  | v_maxprops n : rel_vobj (VMaxProps n) (VMaxProps n)
  | v_object o o' : rel_objv o o' -> rel_vobj (VObject o) (VObject o')
  | v_depreq n : rel_vobj (VDepRequired n) (VDepRequired n)
  | v_depsch m m' : Forall2 (member R) m m' -> rel_vobj (VDepSchemas m) (VDepSchemas m')
  | v_array i i' p p' : rel_opt R i i' -> rel_opt (Forall2 R) p p' -> rel_vobj (VArray i p) (VArray i' p')
  | v_contains a b mn mx : R a b -> rel_vobj (VContains a mn mx) (VContains b mn mx)
  | v_minitems n : rel_vobj (VMinItems n) (VMinItems n)
  | v_maxitems n : rel_vobj (VMaxItems n) (VMaxItems n)
  | v_unique : rel_vobj VUnique VUnique
  | v_allof l l' : Forall2 R l l' -> rel_vobj (VAllOf l) (VAllOf l')
  | v_anyof l l' : Forall2 R l l' -> rel_vobj (VAnyOf l) (VAnyOf l')
  | v_oneof l l' : Forall2 R l l' -> rel_vobj (VOneOf l) (VOneOf l')
  | v_not a b : R a b -> rel_vobj (VNot a) (VNot b)
  | v_cond k k' : rel_condv k k' -> rel_vobj (VCond k) (VCond k').

  Variables (view1 : N1 -> res (nview N1)) (view2 : N2 -> res (nview N2)).
  Variables (str1 : N1 -> pystr) (str2 : N2 -> pystr) (E : env).
  (** Whether an object is reached through a reference matters only where names
      are listed. *)
  Definition like_view (w : nview N1) (w' : nview N2) : Prop := rel_nval (nv_val w) (nv_val w') /\ (nv_ref w = nv_ref w' \/ exists o, nv_val w = NObj o).
  Record like_members (it : list (pystr * N1)) (it' : list (pystr * N2)) : Prop := LikeMembers {
    lm_names : forall k n n' l l', k = u "type" \/ k = u "required" -> dget k it = Some n -> dget k it' = Some n' ->
      view1 n = Ok (NView (NArr l) false) -> view2 n' = Ok (NView (NArr l') false) -> map (item_str view1 str1) l = map (item_str view2 str2) l';
    lm_dep : forall n n' w w' m m', dget (u "dependentRequired") it = Some n -> dget (u "dependentRequired") it' = Some n' ->
      view1 n = Ok w -> view2 n' = Ok w' -> nv_val w = NObj m -> nv_val w' = NObj m' ->
      Forall2 (member (fun x y => rel_res eq (iter_strs view1 str1 x) (iter_strs view2 str2 y))) m m';
    lm_enum : forall n n' w w' l l', dget (u "enum") it = Some n -> dget (u "enum") it' = Some n' ->
      view1 n = Ok w -> view2 n' = Ok w' -> nv_val w = NArr l -> nv_val w' = NArr l' ->
      Forall2 (fun x y => rel_res rel_nval (enum_item view1 x) (enum_item view2 y)) l l'
  }.
  Hypothesis Hview : forall a b, R a b -> rel_res like_view (view1 a) (view2 b).

  Lemma rel_eq_node v : forall a b, R a b -> eq_node view1 v a = eq_node view2 v b.
  Proof.
    induction v as [v Hl Hd|vs IH|d IH] using pv_ind_deep; intros a b Hab.
    - assert (E1 : forall (view : N1 -> res (nview N1)) n, eq_node view v n = bind (view n) (fun w => match nv_val w with
        | NNull => Ok (match v with VNone => true | _ => false end)
        | NStr s => Ok (match v with VStr t => str_eqb s t | _ => false end)
        | NBool b => match v with VBool b' => Ok (Bool.eqb b b') | _ => Raise EType end
        | NNum d => match v with
                    | VFloat f => Ok (Qeq_bool (dec_q d) (dec_q (frepr f)))
                    | VInt _ | VBool _ | VDec _ => Ok (opt_q_eqb (Some (dec_q d)) (num_q v))
                    | _ => Raise EType
                    end
        | _ => Ok false end)).
      { intros view n. destruct v; try reflexivity; exfalso; [eapply Hl|eapply Hd]; reflexivity. }
      assert (E2 : forall (view : N2 -> res (nview N2)) n, eq_node view v n = bind (view n) (fun w => match nv_val w with
        | NNull => Ok (match v with VNone => true | _ => false end)
        | NStr s => Ok (match v with VStr t => str_eqb s t | _ => false end)
        | NBool b => match v with VBool b' => Ok (Bool.eqb b b') | _ => Raise EType end
        | NNum d => match v with
                    | VFloat f => Ok (Qeq_bool (dec_q d) (dec_q (frepr f)))
                    | VInt _ | VBool _ | VDec _ => Ok (opt_q_eqb (Some (dec_q d)) (num_q v))
                    | _ => Raise EType
                    end
        | _ => Ok false end)).
      { intros view n. destruct v; try reflexivity; exfalso; [eapply Hl|eapply Hd]; reflexivity. }
      rewrite E1, E2. apply rel_eq. eapply rel_bind; [apply Hview, Hab|]. intros w w' [Hw _]. destruct Hw; apply eq_rel.
    - apply rel_eq. cbn [eq_node]. eapply rel_bind; [apply Hview, Hab|]. intros w w' [Hw _]. destruct Hw as [| | | |l l' F|]; try (constructor; reflexivity).
      rewrite (forall2_length _ _ _ F). destruct (Nat.eqb _ _); [|constructor; reflexivity].
      revert vs IH. induction F as [|x y l l' Hx F IHF]; intros [|v vs] IH; try (constructor; reflexivity). inversion IH as [|? ? I1 I2]; subst.
      rewrite (I1 _ _ Hx). destruct (eq_node view2 v y) as [[|]| |]; cbn [bind]; try (constructor; reflexivity). apply IHF, I2.
    - apply rel_eq. cbn [eq_node]. eapply rel_bind; [apply Hview, Hab|]. intros w w' [Hw _]. destruct Hw as [| | | | |m m' F]; try (constructor; reflexivity).
      rewrite (forall2_length _ _ _ F). destruct (Nat.eqb _ _); [|constructor; reflexivity].
      assert (K : forall k, rel_opt (fun t t' => forall x y, R x y -> t x = t' y) (dget k (map (fun '(k, x) => (k, eq_node view1 x)) d)) (dget k (map (fun '(k, x) => (k, eq_node view2 x)) d))).
      { intro k. clear -IH. induction IH as [|[k1 x] d I1 _ IHd]; cbn [map dget]; [constructor|]. destruct (str_eqb k k1); [constructor; exact I1|exact IHd]. }
      induction F as [|[k x] [k' y] m m' [Ek Hx] F IHF]; [constructor; reflexivity|]. cbn [fst snd] in *. subst k'. destruct (K k) as [|t t' Ht]; [constructor; reflexivity|].
      rewrite (Ht _ _ Hx). destruct (t' y) as [[|]| |]; cbn [bind]; try (constructor; reflexivity). exact IHF.
  Qed.
  Lemma rel_eq_raw x y v : rel_nval x y -> eq_raw view1 x v = eq_raw view2 y v.
  Proof.
    destruct 1 as [| | | |l l' F|m m' F]; try reflexivity; cbn [eq_raw].
    - destruct v as [| | | | | |vs|]; try reflexivity. rewrite (forall2_length _ _ _ F). destruct (Nat.eqb _ _); [|reflexivity].
      revert vs. induction F as [|a b l l' Hx F IHF]; intros [|v vs]; try reflexivity. rewrite (rel_eq_node v _ _ Hx). destruct (eq_node view2 v b) as [[|]| |]; cbn [bind]; try reflexivity. apply IHF.
    - destruct v as [| | | | | | |items]; try reflexivity. rewrite (forall2_length _ _ _ F). destruct (Nat.eqb _ _); [|reflexivity].
      induction F as [|[k a] [k' b] m m' [Ek Hx] F IHF]; [reflexivity|]. cbn [fst snd] in *. subst k'. destruct (dget k items) as [v|]; [|reflexivity].
      rewrite (rel_eq_node v _ _ Hx). destruct (eq_node view2 v b) as [[|]| |]; cbn [bind]; try reflexivity. exact IHF.
  Qed.
  Lemma rel_is_nbool x y : rel_nval x y -> is_nbool x = is_nbool y.
  Proof. destruct 1; reflexivity. Qed.
  Lemma rel_enum l l' v c : Forall2 rel_nval l l' -> enum_validate view1 l v c = enum_validate view2 l' v c.
  Proof.
    intro F. unfold enum_validate.
    replace (existsb is_nbool l') with (existsb is_nbool l) by (induction F as [|x y l l' Hx F IH]; cbn; [reflexivity|]; rewrite (rel_is_nbool _ _ Hx), IH; reflexivity).
    assert (K1 : enum_tweak_loop view1 l v = enum_tweak_loop view2 l' v).
    { induction F as [|x y l l' Hx F IH]; cbn; [reflexivity|]. rewrite (rel_eq_raw _ _ _ Hx), (rel_is_nbool _ _ Hx), IH. reflexivity. }
    assert (K2 : enum_in view1 l v = enum_in view2 l' v).
    { clear K1. induction F as [|x y l l' Hx F IH]; cbn; [reflexivity|]. rewrite (rel_eq_raw _ _ _ Hx), IH. reflexivity. }
    rewrite K1, K2. reflexivity.
  Qed.
  Lemma rel_const x y v c : rel_nval x y -> const_validate view1 x v c = const_validate view2 y v c.
  Proof. intro H. unfold const_validate. rewrite (rel_is_nbool _ _ H), (rel_eq_raw _ _ _ H). reflexivity. Qed.

  Section Run.
    Variables (rec1 : N1 -> pv -> ctx -> res unit) (rec2 : N2 -> pv -> ctx -> res unit).
    Hypothesis Hrec : forall a b, R a b -> forall v c, rec1 a v c = rec2 b v c.
    Lemma rel_pattern l l' k x c : Forall2 (member R) l l' -> forall b, pattern_loop E rec1 l k x c b = pattern_loop E rec2 l' k x c b.
    Proof.
      induction 1 as [|[p n] [p' n'] l l' [Ep Hn] F IH]; intro b; [reflexivity|]. cbn [pattern_loop fst snd] in *. subst p'. rewrite (Hrec _ _ Hn), !IH. reflexivity.
    Qed.
    Lemma rel_member o o' c kx : rel_objv o o' -> member_validate E rec1 o c kx = member_validate E rec2 o' c kx.
    Proof.
      intros [H1 H2 H3 H4 H5]. destruct kx as [k x]. unfold member_validate. rewrite H4.
      assert (En : match ov_names o with Some n => rec1 n (VStr k) (ctx_add c k) | None => Ok tt end = match ov_names o' with Some n => rec2 n (VStr k) (ctx_add c k) | None => Ok tt end) by (destruct H5; [reflexivity|apply Hrec; assumption]).
      rewrite En. destruct (match ov_names o' with Some n => rec2 n (VStr k) (ctx_add c k) | None => Ok tt end); cbn [bind]; try reflexivity.
      destruct (member_get R _ _ k H1) as [|n n' Hn]; [|apply Hrec, Hn].
      assert (Ep : match ov_pat o with Some p => pattern_loop E rec1 p k x c false | None => Ok false end = match ov_pat o' with Some p => pattern_loop E rec2 p k x c false | None => Ok false end) by (destruct H3; [reflexivity|apply rel_pattern; assumption]).
      rewrite Ep. destruct (match ov_pat o' with Some p => pattern_loop E rec2 p k x c false | None => Ok false end) as [[|]| |]; cbn [bind]; try reflexivity.
      destruct H2 as [|s s' [|n n' Hn]]; cbn [run_sub]; try reflexivity. apply Hrec, Hn.
    Qed.
    Lemma rel_prefix lf ps ps' vals c : Forall2 R ps ps' -> forall i, prefix_loop rec1 lf ps vals i c = prefix_loop rec2 lf ps' vals i c.
    Proof.
      intro F. induction lf as [|lf IH]; intro i; [reflexivity|]. cbn [prefix_loop]. destruct (forall2_nth _ _ _ F i) as [|a b Hab]; [reflexivity|].
      destruct (nth_error vals i); rewrite (Hrec _ _ Hab), IH; reflexivity.
    Qed.
    Lemma rel_items n n' c : R n n' -> forall vals i, items_loop rec1 n vals i c = items_loop rec2 n' vals i c.
    Proof. intro H. induction vals as [|x vals IH]; intro i; [reflexivity|]. cbn [items_loop]. rewrite (Hrec _ _ H), IH. reflexivity. Qed.
    Lemma rel_count n n' : R n n' -> forall l, count_valid rec1 n l = count_valid rec2 n' l.
    Proof. intro H. induction l as [|x l IH]; [reflexivity|]. cbn [count_valid]. rewrite (Hrec _ _ H), IH. reflexivity. Qed.
    Lemma rel_anyof l l' v c : Forall2 R l l' -> forall last, anyof_loop rec1 l v c last = anyof_loop rec2 l' v c last.
    Proof.
      induction 1 as [|a b l l' H F IH]; intro last; [reflexivity|]. cbn [anyof_loop]. rewrite (Hrec _ _ H). destruct (try_valid _) as [[e|]| |]; cbn [bind]; try reflexivity. apply IH.
    Qed.
    Lemma rel_oneof l l' v c : Forall2 R l l' -> forall k last, oneof_loop rec1 l v c k last = oneof_loop rec2 l' v c k last.
    Proof.
      induction 1 as [|a b l l' H F IH]; intros k last; [reflexivity|]. cbn [oneof_loop]. rewrite (Hrec _ _ H). destruct (try_valid _) as [[e|]| |]; cbn [bind]; try reflexivity; apply IH.
    Qed.
    Lemma rel_run lf o o' v c : rel_vobj o o' -> run_vobj view1 E rec1 lf o v c = run_vobj view2 E rec2 lf o' v c.
    Proof.
      destruct 1; cbn [run_vobj]; try reflexivity.
      - apply rel_enum; assumption.
      - apply rel_const; assumption.
      - destruct v as [| | | | | | |items]; try reflexivity. cbn [object_validate]. apply (rel_for_each eq); [clear; induction items; constructor; auto|]. intros kx ? <-. apply rel_member; assumption.
      - destruct v; try reflexivity. cbn [dep_schemas_validate]. eapply rel_for_each; [eassumption|]. intros [k n] [k' n'] [Ek Hn]. cbn [fst snd] in *. subst k'. rewrite (Hrec _ _ Hn). reflexivity.
      - destruct v; try reflexivity. unfold array_validate.
        assert (Ep : match p with None | Some [] => Ok 0%nat | Some ps => prefix_loop rec1 lf ps l 0 c end = match p' with None | Some [] => Ok 0%nat | Some ps => prefix_loop rec2 lf ps l 0 c end).
        { destruct H0 as [|ps ps' F]; [reflexivity|]. destruct F as [|a b ps ps' Hab F]; [reflexivity|]. apply rel_prefix. constructor; assumption. }
        rewrite Ep. destruct (match p' with None | Some [] => Ok 0%nat | Some ps => prefix_loop rec2 lf ps l 0 c end); cbn [bind]; try reflexivity. destruct H; [reflexivity|]. apply rel_items. assumption.
      - unfold contains_validate. destruct (py_iter v); cbn [bind]; try reflexivity. rewrite (rel_count _ _ H). reflexivity.
      - eapply rel_for_each; [eassumption|]. intros. apply Hrec. assumption.
      - apply rel_anyof. assumption.
      - apply rel_oneof. assumption.
      - unfold not_validate. rewrite (Hrec _ _ H). reflexivity.
      - destruct H as [H1 H2 H3]. unfold cond_validate. destruct H1 as [|i i' Hi]; [reflexivity|]. rewrite (Hrec _ _ Hi). destruct (try_valid _) as [[e|]| |]; cbn [bind]; try reflexivity.
        + destruct H3; [reflexivity|]. apply Hrec. assumption.
        + destruct H2; [reflexivity|]. apply Hrec. assumption.
    Qed.
  End Run.

  Notation data_rel := (Forall2 (member rel_vobj)).
  Lemma rel_opnd it it' k : Forall2 (member R) it it' -> rel_res like_view (opnd view1 it k) (opnd view2 it' k).
  Proof. intro F. unfold opnd. destruct (member_get R it it' k F) as [|a b H]; [constructor|apply Hview, H]. Qed.
  Lemma rel_opnd_node it it' k : Forall2 (member R) it it' -> rel_res R (opnd_node it k) (opnd_node it' k).
  Proof. intro F. unfold opnd_node. destruct (member_get R it it' k F) as [|a b H]; constructor. exact H. Qed.
  Lemma rel_as_num w w' : like_view w w' -> rel_res eq (as_num w) (as_num w').
  Proof. intros [H [E0|(o & E0)]]; unfold as_num; [rewrite E0; destruct H; try constructor; destruct (nv_ref w'); constructor; reflexivity|rewrite E0 in *; inversion H; constructor]. Qed.
  Lemma rel_as_str w w' : like_view w w' -> rel_res eq (as_str w) (as_str w').
  Proof. intros [H [E0|(o & E0)]]; unfold as_str; [rewrite E0; destruct H; try constructor; destruct (nv_ref w'); constructor; reflexivity|rewrite E0 in *; inversion H; constructor]. Qed.
  Lemma rel_as_arr w w' : like_view w w' -> rel_res (Forall2 R) (as_arr w) (as_arr w').
  Proof. intros [H [E0|(o & E0)]]; unfold as_arr; [rewrite E0; destruct H; try constructor; destruct (nv_ref w'); constructor; assumption|rewrite E0 in *; inversion H; constructor]. Qed.
  Lemma rel_as_obj w w' : like_view w w' -> rel_res (Forall2 (member R)) (as_obj w) (as_obj w').
  Proof. intros [H E0]. unfold as_obj. destruct H; try constructor. assumption. Qed.
  Lemma rel_get_objv d d' : data_rel d d' -> rel_res rel_objv (get_objv d) (get_objv d').
  Proof.
    intro F. unfold get_objv. destruct (member_get _ _ _ (u "properties") F) as [|o o' H]; [constructor; constructor; constructor|]. destruct H; try constructor. assumption.
  Qed.
  Lemma rel_put_objv d d' o o' : data_rel d d' -> rel_objv o o' -> data_rel (put_objv d o) (put_objv d' o').
  Proof. intros F H. apply member_set; [exact F|constructor; exact H]. Qed.
  Lemma rel_get_condv d d' : data_rel d d' -> rel_res rel_condv (get_condv d) (get_condv d').
  Proof.
    intro F. unfold get_condv. destruct (member_get _ _ _ (u "if") F) as [|o o' H]; [constructor; constructor; constructor|]. destruct H; try constructor. assumption.
  Qed.
  Lemma rel_put_condv d d' o o' : data_rel d d' -> rel_condv o o' -> data_rel (put_condv d o) (put_condv d' o').
  Proof. intros F H. apply member_set; [exact F|constructor; exact H]. Qed.
  Lemma rel_flag it it' k : Forall2 (member R) it it' -> rel_res eq (exclusive_flag view1 it k) (exclusive_flag view2 it' k).
  Proof.
    intro F. unfold exclusive_flag. rewrite (member_mem R it it' k F). destruct (dmem k it'); [|constructor; reflexivity]. eapply rel_bind; [apply rel_opnd, F|].
    intros w w' [V _]. constructor. unfold eq_true. destruct V; reflexivity.
  Qed.
  Lemma rel_bound it it' k : Forall2 (member R) it it' -> rel_res eq (opt_bound view1 it k) (opt_bound view2 it' k).
  Proof.
    intro F. unfold opt_bound. rewrite (member_mem R it it' k F). destruct (dmem k it'); [|constructor; reflexivity]. eapply rel_bind; [apply rel_opnd, F|].
    intros w w' V. eapply rel_bind; [apply rel_as_num, V|]. intros ? ? ->. constructor. reflexivity.
  Qed.
  Lemma rel_is_true w w' : like_view w w' -> is_true w = is_true w'.
  Proof. intros [V _]. unfold is_true. destruct V; reflexivity. Qed.

  Lemma rel_put k o o' d d' : data_rel d d' -> rel_vobj o o' -> data_rel (put k o d) (put k o' d').
  Proof. intros. apply member_set; assumption. Qed.
  Local Hint Resolve rel_put rel_put_objv rel_put_condv : rel.
  Ltac objv H := destruct H as [? ? ? ? ?]; constructor; cbn; auto; try constructor; auto.
  Lemma rel_fold m m' : Forall2 (member R) m m' -> forall d d', Forall2 (member R) d d' ->
    Forall2 (member R) (fold_left (fun acc kn => dset (fst kn) (snd kn) acc) m d) (fold_left (fun acc kn => dset (fst kn) (snd kn) acc) m' d').
  Proof.
    induction 1 as [|[k a] [k' b] m m' [Ek H] F IH]; intros d d' Fd; [exact Fd|]. cbn [fold_left fst snd] in *. subst k'. apply IH. apply member_set; assumption.
  Qed.

  Lemma rel_apply k it it' d d' : Forall2 (member R) it it' -> like_members it it' -> data_rel d d' -> rel_res data_rel (apply view1 str1 E k it d) (apply view2 str2 E k it' d').
  Proof.
    intros F [T1 T2 T3] D. unfold apply. pose proof (member_get R it it' (kw_key k) F) as Gk.
    assert (X : (dget (kw_key k) it = None /\ dget (kw_key k) it' = None) \/ exists n n', dget (kw_key k) it = Some n /\ dget (kw_key k) it' = Some n' /\ R n n') by (destruct Gk; eauto 8).
    clear Gk. destruct X as [[G1 G2]|(n & n' & G1 & G2 & Hn)].
    { assert (O1 : opnd view1 it (kw_key k) = Raise (EKey (kw_key k))) by (unfold opnd; rewrite G1; reflexivity). assert (O2 : opnd view2 it' (kw_key k) = Raise (EKey (kw_key k))) by (unfold opnd; rewrite G2; reflexivity).
      rewrite O1, O2. constructor. }
    assert (O1 : opnd view1 it (kw_key k) = view1 n /\ opnd_node it (kw_key k) = Ok n) by (unfold opnd, opnd_node; rewrite G1; auto). destruct O1 as [-> ->].
    assert (O2 : opnd view2 it' (kw_key k) = view2 n' /\ opnd_node it' (kw_key k) = Ok n') by (unfold opnd, opnd_node; rewrite G2; auto). destruct O2 as [-> ->].
    pose proof (Hview n n' Hn) as Vn.
    assert (X : (exists w w', view1 n = Ok w /\ view2 n' = Ok w' /\ like_view w w') \/ (exists e, view1 n = Raise e /\ view2 n' = Raise e) \/ (view1 n = OutOfFuel /\ view2 n' = OutOfFuel)) by (destruct Vn; eauto 8).
    clear Vn. destruct X as [(w & w' & V1 & V2 & W)|[(e & -> & ->)|[-> ->]]]; [|constructor|constructor]. rewrite V1, V2. cbn [bind]. pose proof W as [V Er].
    destruct k.
    all: try (eapply rel_bind; [first [apply rel_as_arr, W|apply rel_as_num, W]|]; intros ? ? Hl; try subst; constructor; apply rel_put; [exact D|constructor; auto]; fail).
    all: try (eapply rel_bind; [apply rel_as_obj, W|]; intros m m' Hm; constructor; apply rel_put; [exact D|constructor; auto]; fail).
    - (* additionalProperties *)
      destruct V as [|[|]| | | |]; try constructor; (eapply rel_bind; [apply rel_get_objv, D|]; intros o o' Ho; constructor; apply rel_put_objv; [exact D|]); [exact Ho|objv Ho|objv Ho]; constructor; exact Hn.
    - (* const *)
      destruct Er as [Er|(o & Eo)]; [|rewrite Eo in *; inversion V; constructor]. rewrite Er. destruct V; try constructor; destruct (nv_ref w'); constructor; apply rel_put; auto; repeat constructor.
    - (* contains *)
      eapply rel_bind; [apply rel_as_obj, W|]. intros _ _ _. eapply rel_bind; [apply rel_bound, F|]. intros mn ? <-. eapply rel_bind; [apply rel_bound, F|]. intros mx ? <-. constructor. apply rel_put; [exact D|constructor; exact Hn].
    - (* dependentRequired *)
      unfold as_obj. destruct (nv_val w) as [| | | | |m] eqn:Em, (nv_val w') as [| | | | |m'] eqn:Em'; try constructor; try (inversion V; fail). cbn [bind]. pose proof (T2 n n' w w' m m' G1 G2 V1 V2 Em Em') as Hm.
      eapply rel_bind with (P := eq); [|intros l ? <-; constructor; apply rel_put; [exact D|constructor]].
      assert (K : rel_res (Forall2 eq) (map_res (fun '(key, x) => s <- iter_strs view1 str1 x;; Ok (key, s)) m) (map_res (fun '(key, x) => s <- iter_strs view2 str2 x;; Ok (key, s)) m')).
      { eapply rel_map; [exact Hm|]. intros [k a] [k' b] [Ek H]. cbn [fst snd] in *. subst k'. eapply rel_bind; [exact H|]. intros s ? <-. constructor. reflexivity. }
      destruct K as [l l' K| |]; constructor. induction K; congruence.
    - (* else *)
      eapply rel_bind; [apply rel_as_obj, W|]. intros _ _ _. eapply rel_bind; [apply rel_get_condv, D|]. intros o o' [H1 H2 H3]. constructor. apply rel_put_condv; [exact D|]. constructor; cbn; auto. constructor; exact Hn.
    - (* enum *)
      destruct (nv_val w) as [| | | |l|] eqn:Em, (nv_val w') as [| | | |l'|] eqn:Em'; try constructor; try (inversion V; fail). eapply rel_bind; [eapply rel_map; [exact (T3 n n' w w' l l' G1 G2 V1 V2 Em Em')|intros a b Hab; exact Hab]|]. intros x x' Hx. constructor. apply rel_put; [exact D|constructor; exact Hx].
    - (* exclusiveMaximum *)
      rewrite (member_mem R it it' _ F).
      assert (K : rel_res data_rel (m <- as_num w;; Ok (put KwExclusiveMaximum (VMaximum m true) d)) (m <- as_num w';; Ok (put KwExclusiveMaximum (VMaximum m true) d'))).
      { eapply rel_bind; [apply rel_as_num, W|]. intros m ? <-. constructor. apply rel_put; [exact D|constructor]. }
      destruct V; try exact K. destruct (dmem _ it'); constructor. exact D.
    - (* exclusiveMinimum *)
      rewrite (member_mem R it it' _ F).
      assert (K : rel_res data_rel (m <- as_num w;; Ok (put KwExclusiveMinimum (VMinimum m true) d)) (m <- as_num w';; Ok (put KwExclusiveMinimum (VMinimum m true) d'))).
      { eapply rel_bind; [apply rel_as_num, W|]. intros m ? <-. constructor. apply rel_put; [exact D|constructor]. }
      destruct V; try exact K. destruct (dmem _ it'); constructor. exact D.
    - (* format *)
      eapply rel_bind; [apply rel_as_str, W|]. intros f ? <-. destruct (fmt E f); constructor. apply rel_put; [exact D|constructor].
    - (* if *)
      eapply rel_bind; [apply rel_as_obj, W|]. intros _ _ _. eapply rel_bind; [apply rel_get_condv, D|]. intros o o' [H1 H2 H3]. constructor. apply rel_put_condv; [exact D|]. constructor; cbn; auto. constructor; exact Hn.
    - (* items *)
      assert (K : rel_res (fun a b => rel_opt R (fst a) (fst b) /\ rel_opt (Forall2 R) (snd a) (snd b))
        match dget (kw_key KwItems) d with None => Ok (None, None) | Some (VArray it0 pre) => Ok (it0, pre) | Some _ => Raise EUnmodelled end
        match dget (kw_key KwItems) d' with None => Ok (None, None) | Some (VArray it0 pre) => Ok (it0, pre) | Some _ => Raise EUnmodelled end).
      { destruct (member_get _ _ _ (kw_key KwItems) D) as [|o o' H]; [constructor; split; constructor|]. destruct H; try constructor. split; assumption. }
      destruct V as [| | | |l l' Fl|m m' Fm]; try (apply rr_raise); (eapply rel_bind; [exact K|]; intros [i1 p1] [i2 p2] [H1 H2]; cbn [fst snd] in *).
      + constructor. apply rel_put; [exact D|]. rewrite <- (rel_is_true _ _ W). constructor; [|exact H2]. destruct (is_true w); [exact H1|constructor; exact Hn].
      + destruct Er as [Er|(o & Eo)]; [|discriminate]. rewrite Er. destruct (nv_ref w'); [constructor|]. rewrite (member_mem R it it' _ F). destruct (dmem _ it').
        * eapply rel_bind; [apply rel_opnd, F|]. intros wa wa' Wa. eapply rel_bind; [apply rel_opnd_node, F|]. intros na na' Hna. constructor. apply rel_put; [exact D|]. rewrite <- (rel_is_true _ _ Wa). constructor; [|constructor; exact Fl].
          destruct (is_true wa); [exact H1|constructor; exact Hna].
        * constructor. apply rel_put; [exact D|]. constructor; [exact H1|constructor; exact Fl].
      + constructor. apply rel_put; [exact D|]. rewrite <- (rel_is_true _ _ W). constructor; [|exact H2]. destruct (is_true w); [exact H1|constructor; exact Hn].
    - (* maximum *)
      eapply rel_bind; [apply rel_as_num, W|]. intros m ? <-. eapply rel_bind; [apply rel_flag, F|]. intros b ? <-. constructor. apply rel_put; [exact D|constructor].
    - (* minimum *)
      eapply rel_bind; [apply rel_as_num, W|]. intros m ? <-. eapply rel_bind; [apply rel_flag, F|]. intros b ? <-. constructor. apply rel_put; [exact D|constructor].
    - (* pattern *)
      eapply rel_bind; [apply rel_as_str, W|]. intros f ? <-. destruct (re_ok E f); constructor. apply rel_put; [exact D|constructor].
    - (* patternProperties *)
      eapply rel_bind; [apply rel_as_obj, W|]. intros m m' Hm. eapply rel_bind; [apply rel_get_objv, D|]. intros o o' Ho. constructor. apply rel_put_objv; [exact D|]. objv Ho.
    - (* prefixItems *)
      eapply rel_bind; [apply rel_as_arr, W|]. intros l l' Hl. rewrite (member_mem _ _ _ (u "items") D).
      eapply rel_bind with (P := fun a b => rel_opt R (fst a) (fst b) /\ rel_opt (Forall2 R) (snd a) (snd b)).
      + destruct (dmem (u "items") d'); [|constructor; split; constructor]. destruct (member_get _ _ _ (kw_key KwPrefixItems) D) as [|o o' H]; [constructor|]. destruct H; try constructor. split; assumption.
      + intros [i1 p1] [i2 p2] [H1 H2]. cbn [fst snd] in *. constructor. apply rel_put; [exact D|]. constructor; [exact H1|constructor; exact Hl].
    - (* properties *)
      eapply rel_bind; [apply rel_as_obj, W|]. intros m m' Hm. eapply rel_bind; [apply rel_get_objv, D|]. intros o o' Ho. constructor. apply rel_put_objv; [exact D|]. destruct Ho as [? ? ? ? ?]. constructor; cbn; auto. apply rel_fold; assumption.
    - (* propertyNames *)
      eapply rel_bind; [apply rel_as_obj, W|]. intros m m' Hm. eapply rel_bind; [apply rel_get_objv, D|]. intros o o' Ho. constructor. apply rel_put_objv; [exact D|]. objv Ho.
    - (* required *)
      destruct w as [vw f], w' as [vw' g]. cbn [nv_val nv_ref] in *. unfold as_arr. cbn [nv_val nv_ref]. destruct Er as [Er|(o & ->)]; [|inversion V; constructor]. subst g.
      destruct V as [| | | |l l' Fl|]; try constructor. destruct f; [constructor|]. cbn [bind]. rewrite (T1 _ n n' l l' (or_intror eq_refl) G1 G2 V1 V2). constructor. apply rel_put; [exact D|]. constructor.
    - (* then *)
      eapply rel_bind; [apply rel_as_obj, W|]. intros _ _ _. eapply rel_bind; [apply rel_get_condv, D|]. intros o o' [H1 H2 H3]. constructor. apply rel_put_condv; [exact D|]. constructor; cbn; auto. constructor; exact Hn.
    - (* type *)
      destruct w as [vw f], w' as [vw' g]. cbn [nv_val nv_ref] in *. eapply rel_bind with (P := eq).
      + destruct Er as [Er|(o & ->)]; [|inversion V; constructor]. subst g. destruct V as [| | | |l l' Fl|]; try constructor; destruct f; constructor; [reflexivity|]. apply (T1 _ n n' l l' (or_introl eq_refl) G1 G2 V1 V2).
      + intros ts ? <-. destruct (forallb _ ts); constructor. apply rel_put; [exact D|constructor].
    - (* unevaluatedProperties *)
      destruct V; try constructor. eapply rel_bind; [apply rel_get_objv, D|]. intros o o' Ho. constructor. apply rel_put_objv; [exact D|]. destruct Ho as [? ? ? Hu ?]. constructor; cbn; auto. rewrite Hu. reflexivity.
    - (* uniqueItems *)
      destruct V as [|[|]| | | |]; constructor; [|exact D]. apply rel_put; [exact D|constructor].
  Qed.

  Lemma rel_can_apply w w' k : like_view w w' -> rel_res eq (can_apply view1 w k) (can_apply view2 w' k).
  Proof.
    intros [V _]. unfold can_apply. destruct V as [| | | |l l' F|m m' F]; try constructor; try reflexivity.
    - induction F as [|a b l l' H F IH]; cbn [arr_contains_str]; [constructor; reflexivity|]. rewrite (rel_eq_node (VStr k) _ _ H). destruct (eq_node view2 (VStr k) b) as [[|]| |]; cbn [bind]; try constructor; [reflexivity|exact IH].
    - eapply member_mem, F.
  Qed.
  Lemma rel_kws voc w w' : like_view w w' -> (forall it it', nv_val w = NObj it -> nv_val w' = NObj it' -> like_members it it') -> forall d d', data_rel d d' -> rel_res data_rel (run_kws view1 str1 E w voc d) (run_kws view2 str2 E w' voc d').
  Proof.
    intros W T. induction voc as [|k voc IH]; intros d d' D; cbn [run_kws]; [constructor; exact D|]. eapply rel_bind; [|exact (fun d d' D => IH d d' D)].
    unfold step_kw. eapply rel_bind; [apply rel_can_apply, W|]. intros b ? <-. destruct b; [|constructor; exact D]. destruct W as [V _]. destruct (nv_val w) as [| | | | |it], (nv_val w') as [| | | | |it']; try constructor; try (inversion V; fail).
    apply rel_apply; [inversion V; assumption|apply T; reflexivity|exact D].
  Qed.
  Hypothesis Htidy : forall a b w w' it it', R a b -> view1 a = Ok w -> view2 b = Ok w' -> nv_val w = NObj it -> nv_val w' = NObj it' -> like_members it it'.
  Lemma rel_compile voc a b : R a b -> rel_res data_rel (compile view1 str1 E voc a) (compile view2 str2 E voc b).
  Proof.
    intro H. unfold compile. pose proof (Hview a b H) as Va. pose proof (Htidy a b) as Ta. destruct Va as [w w' W| |]; try constructor. cbn [bind].
    assert (K : rel_res data_rel (run_kws view1 str1 E w voc []) (run_kws view2 str2 E w' voc [])) by (apply rel_kws; [exact W| |constructor]; intros it it' E1 E2; eapply Ta; eauto).
    destruct W as [V _]. destruct V as [|[|]| | | |]; try exact K; constructor; repeat constructor.
  Qed.
  Theorem validate_alike voc fuel : forall a b, R a b -> forall v c, validate view1 str1 E voc fuel a v c = validate view2 str2 E voc fuel b v c.
  Proof.
    induction fuel as [|fuel IH]; intros a b H v c; cbn [validate]; [reflexivity|]. apply rel_eq. eapply rel_bind; [apply rel_compile, H|]. intros d d' D.
    rewrite (rel_for_each _ _ (fun kv => run_vobj view2 E (validate view2 str2 E voc fuel) fuel (snd kv) v c) _ _ D); [apply eq_rel|].
    intros [k o] [k' o'] [_ Ho]. apply rel_run; [exact IH|exact Ho].
  Qed.
  Theorem schema_validate_alike voc fuel a b : R a b -> forall v, schema_validate view1 str1 E voc fuel a v = schema_validate view2 str2 E voc fuel b v.
  Proof.
    intros H v. unfold schema_validate. apply rel_eq. eapply rel_bind; [apply Hview, H|]. intros w w' [V _]. rewrite (validate_alike voc fuel _ _ H). destruct V; apply eq_rel.
  Qed.
End Rel.

(** When related nodes also have the same texts, and are both reached through a
    reference or both not, nothing more is needed. *)
Section Same.
  Context {N1 N2 : Type} (R : N1 -> N2 -> Prop).
  Variables (view1 : N1 -> res (nview N1)) (view2 : N2 -> res (nview N2)).
  Variables (str1 : N1 -> pystr) (str2 : N2 -> pystr) (E : env).
  Hypothesis Hview : forall a b, R a b -> rel_res (rel_view R) (view1 a) (view2 b).
  Lemma strict_like a b : R a b -> rel_res (like_view R) (view1 a) (view2 b).
  Proof. intro H. destruct (Hview a b H) as [w w' [V1 V2]| |]; constructor. split; [exact V1|left; exact V2]. Qed.
  Lemma strict_eq_node v : forall a b, R a b -> eq_node view1 v a = eq_node view2 v b.
  Proof. apply (rel_eq_node R view1 view2), strict_like. Qed.
  Hypothesis Hstr : forall a b, R a b -> str1 a = str2 b.
  Lemma rel_item_str a b : R a b -> item_str view1 str1 a = item_str view2 str2 b.
  Proof.
    intro H. unfold item_str. pose proof (Hview _ _ H) as V. pose proof (Hstr _ _ H) as S. destruct V as [[x f] [y g] [V1 V2]| |]; [|exact S|exact S].
    cbn [nv_val nv_ref] in *. subst g. destruct V1; try exact S. destruct f; [exact S|reflexivity].
  Qed.
  Lemma rel_item_strs l l' : Forall2 R l l' -> map (item_str view1 str1) l = map (item_str view2 str2) l'.
  Proof. induction 1 as [|a b l l' H F IH]; cbn; [reflexivity|]. rewrite (rel_item_str _ _ H), IH. reflexivity. Qed.
  Lemma rel_iter_strs a b : R a b -> rel_res eq (iter_strs view1 str1 a) (iter_strs view2 str2 b).
  Proof.
    intro H. unfold iter_strs. eapply rel_bind; [apply Hview, H|]. intros w w' [V1 V2]. rewrite V2. destruct (nv_ref w'); [constructor|]. destruct V1; try constructor; [reflexivity|apply rel_item_strs; assumption|eapply member_keys; eassumption].
  Qed.
  Lemma rel_enum_item a b : R a b -> rel_res (rel_nval R) (enum_item view1 a) (enum_item view2 b).
  Proof. intro H. unfold enum_item. eapply rel_bind; [apply Hview, H|]. intros w w' [V1 V2]. rewrite V2. destruct (nv_ref w'); constructor. exact V1. Qed.
  Lemma strict_shown a b w w' : R a b -> view1 a = Ok w -> view2 b = Ok w' -> rel_nval R (nv_val w) (nv_val w').
  Proof. intros H E1 E2. pose proof (Hview a b H) as V. rewrite E1, E2 in V. inversion V as [? ? [V1 _]| |]; exact V1. Qed.
  Lemma strict_get it it' k n n' : Forall2 (member R) it it' -> dget k it = Some n -> dget k it' = Some n' -> R n n'.
  Proof. intros F E1 E2. pose proof (member_get R it it' k F) as G. rewrite E1, E2 in G. inversion G. assumption. Qed.
  Lemma strict_tidy a b w w' it it' : R a b -> view1 a = Ok w -> view2 b = Ok w' -> nv_val w = NObj it -> nv_val w' = NObj it' -> like_members R view1 view2 str1 str2 it it'.
  Proof.
    intros H V1 V2 E1 E2. pose proof (strict_shown a b w w' H V1 V2) as V. rewrite E1, E2 in V. inversion V as [| | | | |? ? F]; subst. constructor.
    - intros k n n' l l' _ G1 G2 W1 W2. pose proof (strict_shown _ _ _ _ (strict_get _ _ _ _ _ F G1 G2) W1 W2) as Vn. inversion Vn. apply rel_item_strs. assumption.
    - intros n n' v v' m m' G1 G2 W1 W2 M1 M2. pose proof (strict_shown _ _ _ _ (strict_get _ _ _ _ _ F G1 G2) W1 W2) as Vn. rewrite M1, M2 in Vn. inversion Vn as [| | | | |? ? Fm]; subst.
      clear -Fm Hview Hstr. induction Fm as [|x y m m' [K X] Fm IH]; constructor; [split; [exact K|apply rel_iter_strs, X]|exact IH].
    - intros n n' v v' l l' G1 G2 W1 W2 M1 M2. pose proof (strict_shown _ _ _ _ (strict_get _ _ _ _ _ F G1 G2) W1 W2) as Vn. rewrite M1, M2 in Vn. inversion Vn as [| | | |? ? Fl|]; subst.
      clear -Fl Hview. induction Fl as [|x y l l' X Fl IH]; constructor; [apply rel_enum_item, X|exact IH].
  Qed.
  Theorem validate_related voc fuel : forall a b, R a b -> forall v c, validate view1 str1 E voc fuel a v c = validate view2 str2 E voc fuel b v c.
  Proof. apply (validate_alike R view1 view2 str1 str2 E strict_like strict_tidy). Qed.
  Theorem schema_validate_related voc fuel a b : R a b -> forall v, schema_validate view1 str1 E voc fuel a v = schema_validate view2 str2 E voc fuel b v.
  Proof. apply (schema_validate_alike R view1 view2 str1 str2 E strict_like strict_tidy). Qed.
End Same.
