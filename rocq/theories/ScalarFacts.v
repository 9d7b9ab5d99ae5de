(** Supporting lemmas for the one-keyword scalar properties. *)
From Verif Require Import PyBase PyBaseFacts PyVal Errors Validators Keywords Spec LeafFacts Mono RunFacts KeywordFacts Master Claims.
From Coq Require Import QArith Qabs ZifyBool.
Local Open Scope Z_scope.

Ltac kw_apply Hm Hx :=
  unfold apply, opnd, opnd_node; rewrite Hm; cbn [bind]; rewrite Hx;
  cbn [bind nv_val nv_ref as_num as_str as_arr as_obj].

Section Facts.
  Context {node : Type} (view : node -> res (nview node)) (strx : node -> pystr).

  (** operand [m] is an array of plain strings [names] *)
  Definition names_at (m : node) (names : list pystr) : Prop :=
    exists l, val_at view m (NArr l) /\ Forall2 (fun x t => val_at view x (NStr t)) l names.
  Lemma names_item_str l names : Forall2 (fun x t => val_at view x (NStr t)) l names ->
    map (item_str view strx) l = names.
  Proof.
    induction 1 as [|x t l ts H Hf IH]; [reflexivity|]. simpl. rewrite IH.
    unfold item_str. unfold val_at in H. rewrite H. reflexivity.
  Qed.

  (** operand of [type]: a name or a list of names *)
  Definition type_operand (m : node) (ts : list pystr) : Prop :=
    (exists s, val_at view m (NStr s) /\ ts = [s]) \/ names_at m ts.

  Lemma type_raise ts v c : (~ exists t, In t ts /\ has_type v t) ->
    type_validate ts v c = raise_verr (KType ts) (ctx_path c).
  Proof.
    intro H. unfold type_validate.
    destruct (str_mem (type_name v) ts) eqn:H1.
    { exfalso; apply H. apply str_mem_In in H1. exists (type_name v). split; [exact H1|].
      apply type_name_has. left; reflexivity. }
    destruct (str_eqb (type_name v) (u "integer") && str_mem (u "number") ts)%bool eqn:H2; [|reflexivity].
    exfalso; apply H. apply andb_true_iff in H2 as [H2 H3]. apply str_eqb_eq in H2. apply str_mem_In in H3.
    exists (u "number"). split; [exact H3|]. apply type_name_has. right; auto.
  Qed.

  Lemma enum_items_at l xs : Forall2 (val_at view) l xs -> map_res (enum_item view) l = Ok xs.
  Proof.
    induction 1 as [|n x l xs Hx H IH]; [reflexivity|]. simpl.
    unfold enum_item at 1. unfold val_at in Hx. rewrite Hx. cbn [bind nv_ref nv_val]. rewrite IH. reflexivity.
  Qed.
  Lemma tweak_scalar l v : Forall scalar l -> exists b, enum_tweak_loop view l v = Ok b.
  Proof.
    induction 1 as [|x l Hx Hl [b IH]]; simpl; [eauto|].
    destruct (eq_raw_scalar view x v Hx) as [e ->]. cbn [bind].
    destruct e; [|eauto]. destruct (is_nbool x || is_bool v)%bool; [|eauto].
    destruct (is_nbool x && is_bool v)%bool; eauto.
  Qed.
  Lemma in_scalar l v : Forall scalar l -> exists b, enum_in view l v = Ok b.
  Proof.
    induction 1 as [|x l Hx Hl [b IH]]; simpl; [eauto|].
    destruct (eq_raw_scalar view x v Hx) as [e ->]. cbn [bind]. destruct e; eauto.
  Qed.
  Lemma enum_scalar_total xs v c : Forall scalar xs ->
    enum_validate view xs v c = Ok tt \/ enum_validate view xs v c = raise_verr KEnum (ctx_path c).
  Proof.
    intro H. unfold enum_validate. destruct (is_bool v && negb (existsb is_nbool xs))%bool; [right; reflexivity|].
    destruct ((existsb is_nbool xs && py_eq v (VInt 1)) || py_eq v (VInt 0))%bool.
    - destruct (tweak_scalar xs v H) as [b ->]. cbn [bind]. destruct b; auto.
    - destruct (in_scalar xs v H) as [b ->]. cbn [bind]. destruct b; auto.
  Qed.
  Lemma const_scalar_total x v c : scalar x ->
    const_validate view x v c = Ok tt \/ const_validate view x v c = raise_verr KConst (ctx_path c).
  Proof.
    intro H. unfold const_validate.
    destruct ((is_nbool x || is_bool v) && negb (is_nbool x && is_bool v))%bool; [right; reflexivity|].
    destruct (eq_raw_scalar view x v H) as [b ->]. cbn [bind]. destruct b; auto.
  Qed.

  Lemma maximum_total d ex v q c : value_is v q ->
    maximum_validate d ex v c = Ok tt \/ maximum_validate d ex v c = raise_verr (KMaximum d) (ctx_path c).
  Proof.
    rewrite value_is_num. unfold maximum_validate, py_ge_dec, py_gt_dec. intros ->. cbn [bind].
    destruct ex; [destruct (Qle_bool (dec_q d) q)|destruct (negb (Qle_bool q (dec_q d)))]; auto.
  Qed.
  Lemma minimum_total d ex v q c : value_is v q ->
    minimum_validate d ex v c = Ok tt \/ minimum_validate d ex v c = raise_verr (KMinimum d) (ctx_path c).
  Proof.
    rewrite value_is_num. unfold minimum_validate, py_lt_dec, py_le_dec. intros ->. cbn [bind].
    destruct ex; [destruct (Qle_bool q (dec_q d))|destruct (negb (Qle_bool (dec_q d) q))]; auto.
  Qed.
  Lemma bounds_not_number d ex v c : num_q v = None ->
    maximum_validate d ex v c = Raise EType /\ minimum_validate d ex v c = Raise EType.
  Proof.
    unfold maximum_validate, minimum_validate, py_ge_dec, py_gt_dec, py_lt_dec, py_le_dec.
    intros ->. destruct ex; auto.
  Qed.
End Facts.

(** ** integer part *)
(** [z] is [q] truncated toward zero *)
Definition int_part (q : Q) (z : Z) : Prop :=
  (0 <= q -> inject_Z z <= q /\ q < inject_Z (z + 1))%Q /\
  (q <= 0 -> inject_Z (z - 1) < q /\ q <= inject_Z z)%Q.
Lemma int_part_fun q a b : int_part q a -> int_part q b -> a = b.
Proof.
  intros [A1 A2] [B1 B2]. destruct (Qlt_le_dec 0 q) as [H|H].
  - apply Qlt_le_weak in H. destruct (A1 H) as [a1 a2], (B1 H) as [b1 b2].
    assert (inject_Z a < inject_Z (b + 1))%Q by (eapply Qle_lt_trans; eauto).
    assert (inject_Z b < inject_Z (a + 1))%Q by (eapply Qle_lt_trans; eauto).
    rewrite <- Zlt_Qlt in *. lia.
  - destruct (A2 H) as [a1 a2], (B2 H) as [b1 b2].
    assert (inject_Z (a - 1) < inject_Z b)%Q by (eapply Qlt_le_trans; eauto).
    assert (inject_Z (b - 1) < inject_Z a)%Q by (eapply Qlt_le_trans; eauto).
    rewrite <- Zlt_Qlt in *. lia.
Qed.
Lemma dec_int_part d : int_part (dec_q d) (dec_int d).
Proof.
  unfold dec_q, scaled, dec_int. destruct d as [m e]; simpl.
  destruct (Z.leb_spec 0 e) as [He|He].
  - split; intro H; (split; [|]); rewrite <- ?Zle_Qle, <- ?Zlt_Qlt; lia.
  - assert (Hp : 0 < 10 ^ (- e)) by (apply Z.pow_pos_nonneg; lia).
    set (P := 10 ^ (- e)) in *.
    assert (HP : Z.pos (Z.to_pos P) = P) by (apply Z2Pos.id; exact Hp).
    pose proof (Z.quot_rem' m P) as Hqr.
    split; intro H.
    + assert (Hm : 0 <= m).
      { unfold Qle in H. simpl in H. lia. }
      pose proof (Z.rem_bound_pos m P Hm Hp) as Hr.
      split; [unfold Qle|unfold Qlt]; simpl; rewrite HP; nia.
    + assert (Hm : m <= 0).
      { unfold Qle in H. simpl in H. lia. }
      pose proof (Z.rem_bound_pos (- m) P ltac:(lia) Hp) as Hr.
      rewrite Z.rem_opp_l' in Hr.
      split; [unfold Qlt|unfold Qle]; simpl; rewrite HP; nia.
Qed.

(** ** multipleOf outside its domain *)
Lemma scaled_abs_le a b e0 k : 0 <= k ->
  (inject_Z k * Qabs (scaled 10 b e0) <= Qabs (scaled 10 a e0))%Q <-> k * Z.abs b <= Z.abs a.
Proof.
  intro Hk. unfold scaled. destruct (Z.leb_spec 0 e0) as [He|He].
  - assert (Hp : 0 < 10 ^ e0) by (apply Z.pow_pos_nonneg; lia).
    unfold Qle; simpl. rewrite !Z.abs_mul, (Z.abs_eq (10 ^ e0)) by lia. nia.
  - assert (Hp : 0 < 10 ^ (- e0)) by (apply Z.pow_pos_nonneg; lia).
    unfold Qle; simpl. nia.
Qed.
Lemma dec_rem_raise a b :
  ((dec_q b == 0)%Q \/ (inject_Z (10 ^ 28) * Qabs (dec_q b) <= Qabs (dec_q a))%Q) ->
  dec_rem_is_zero a b = Raise EDecimal.
Proof.
  unfold dec_rem_is_zero.
  set (e := Z.min (de a) (de b)).
  assert (Ha : (dec_q a == scaled 10 (dc a * 10 ^ (de a - e)) e)%Q).
  { unfold dec_q. replace (de a) with (e + (de a - e)) at 1 by lia. apply scaled_shift. lia. }
  assert (Hb : (dec_q b == scaled 10 (dc b * 10 ^ (de b - e)) e)%Q).
  { unfold dec_q. replace (de b) with (e + (de b - e)) at 1 by lia. apply scaled_shift. lia. }
  set (x := dc a * 10 ^ (de a - e)) in *. set (y := dc b * 10 ^ (de b - e)) in *.
  intro H. destruct (Z.eqb_spec y 0) as [Hy|Hy]; [reflexivity|].
  destruct H as [H|H].
  - exfalso. apply Hy. rewrite Hb, <- (scaled_zero e) in H. apply scaled_inj in H. exact H.
  - rewrite Ha, Hb, scaled_abs_le in H by lia.
    destruct (Z.leb_spec (10 ^ 28) (Z.abs (Z.quot x y))) as [_|Hlt]; [reflexivity|].
    exfalso. rewrite <- Z.quot_abs in Hlt by exact Hy.
    assert (10 ^ 28 <= Z.quot (Z.abs x) (Z.abs y)).
    { apply Z.quot_le_lower_bound; lia. }
    lia.
Qed.
Lemma dec_rem_total a b : ~ (dec_q b == 0)%Q ->
  (Qabs (dec_q a) < inject_Z (10 ^ 28) * Qabs (dec_q b))%Q -> exists r, dec_rem_is_zero a b = Ok r.
Proof.
  unfold dec_rem_is_zero.
  set (e := Z.min (de a) (de b)).
  assert (Ha : (dec_q a == scaled 10 (dc a * 10 ^ (de a - e)) e)%Q).
  { unfold dec_q. replace (de a) with (e + (de a - e)) at 1 by lia. apply scaled_shift. lia. }
  assert (Hb : (dec_q b == scaled 10 (dc b * 10 ^ (de b - e)) e)%Q).
  { unfold dec_q. replace (de b) with (e + (de b - e)) at 1 by lia. apply scaled_shift. lia. }
  set (x := dc a * 10 ^ (de a - e)) in *. set (y := dc b * 10 ^ (de b - e)) in *.
  intros H0 H. rewrite Ha, Hb in H. rewrite Hb in H0.
  assert (Hy : y <> 0).
  { intros ->. apply H0. apply scaled_zero. }
  apply Qlt_not_le in H. rewrite scaled_abs_le in H by lia.
  destruct (Z.eqb_spec y 0) as [?|_]; [contradiction|].
  destruct (Z.leb_spec (10 ^ 28) (Z.abs (Z.quot x y))) as [Hle|_]; [|eauto].
  exfalso. rewrite <- Z.quot_abs in Hle by exact Hy. apply H.
  pose proof (Z.mul_quot_le (Z.abs x) (Z.abs y) ltac:(lia) ltac:(lia)). nia.
Qed.
Lemma Zabs_Qabs' z : Qabs (inject_Z z) = inject_Z (Z.abs z).
Proof. reflexivity. Qed.
Lemma Qabs_pos_lt q : ~ (q == 0)%Q -> (0 < Qabs q)%Q.
Proof.
  intro H. destruct (Qlt_le_dec 0 (Qabs q)) as [?|Hle]; [assumption|exfalso].
  apply H. destruct q as [a b]. unfold Qle in Hle. simpl in Hle. unfold Qeq. simpl. lia.
Qed.
