(** What each leaf validator accepts. *)
From Verif Require Import PyBase PyBaseFacts PyVal Errors Validators Keywords Spec.
From Coq Require Import QArith ZifyBool.
Local Open Scope Z_scope.

Lemma raise_verr_not_ok {A} k p (a : A) : raise_verr k p <> Ok a.
Proof.
  unfold raise_verr. destruct (by_args k); [discriminate|].
  destruct (err_str k p (template k)); discriminate.
Qed.
Lemma raise_verr_cases {A} k p :
  (exists e, @raise_verr A k p = Raise e).
Proof.
  unfold raise_verr. destruct (by_args k); [eauto|].
  unfold err_str, py_format.
  assert (Hi : forall s acc, get_integer acc s <> OutOfFuel).
  { induction s as [|x s IH]; intro acc; cbn [get_integer]; [discriminate|].
    destruct (is_digit x); [destruct (_ <? _)%N; [discriminate|apply IH]|destruct (_ <=? _)%N; discriminate]. }
  assert (Hf : forall fs name, field_outcome fs name <> OutOfFuel).
  { intros fs name. unfold field_outcome, positional.
    destruct (first_part name) as [|x r]; [discriminate|]. specialize (Hi (x :: r) 0%N).
    destruct (get_integer 0%N (x :: r)) as [[i|]|e|]; cbn [bind]; try discriminate; try contradiction.
    destruct (str_mem _ _); [destruct (existsb _ _)|]; discriminate. }
  assert (H : forall fs i t, format_scan fs i t <> OutOfFuel).
  { intros fs i t. revert i.
    assert (Hlen : forall n t, (List.length t <= n)%nat -> forall i, format_scan fs i t <> OutOfFuel).
    { induction n as [|n IH]; intros s Hs i.
      - destruct s; [|simpl in Hs; lia]. destruct i as [acc|]; discriminate.
      - destruct s as [|x s]; [destruct i as [acc|]; discriminate|].
        cbn [List.length] in Hs. destruct i as [acc|]; cbn [format_scan].
        + destruct (x =? c_lb)%N; [discriminate|]. specialize (Hf fs (rev acc)).
          destruct (x =? c_rb)%N; [destruct (field_outcome fs (rev acc)); cbn [bind]; [apply IH; lia|discriminate|contradiction]|].
          destruct (goes_on x); [|apply IH; lia].
          destruct (name_ends _ _); [destruct (field_outcome fs (rev acc)); cbn [bind]; [discriminate..|contradiction]|discriminate].
        + destruct (x =? c_rb)%N.
          { destruct s as [|y s]; [discriminate|]. destruct (y =? c_rb)%N; [|discriminate].
            apply IH; simpl in Hs; lia. }
          destruct (x =? c_lb)%N; [|apply IH; lia].
          destruct s as [|y s]; [discriminate|].
          destruct (y =? c_lb)%N; apply IH; cbn [List.length] in *; lia. }
    apply (Hlen (List.length t)). lia. }
  match goal with |- context [format_scan ?a ?b ?c] => specialize (H a b c);
    destruct (format_scan a b c) eqn:Hs end; simpl; eauto. congruence.
Qed.
Lemma raise_verr_not_oof {A} k p : @raise_verr A k p <> OutOfFuel.
Proof. destruct (@raise_verr_cases A k p) as [e ->]. discriminate. Qed.

Lemma if_raise_ok (b : bool) k p :
  (if b then Ok tt else raise_verr k p) = Ok tt <-> b = true.
Proof.
  destruct b; split; intro H; try reflexivity; try discriminate.
  exfalso; exact (raise_verr_not_ok _ _ _ H).
Qed.
Lemma if_raise_ok' (b : bool) k p :
  (if b then raise_verr k p else Ok tt) = Ok tt <-> b = false.
Proof.
  destruct b; split; intro H; try reflexivity; try discriminate.
  exfalso; exact (raise_verr_not_ok _ _ _ H).
Qed.

(** type *)
Lemma type_name_has v t : has_type v t <->
  t = type_name v \/ (type_name v = u "integer" /\ t = u "number").
Proof.
  destruct v; simpl; split; intro H; try tauto;
    destruct H as [H|[H1 H2]]; try assumption; try discriminate H1.
Qed.
Lemma type_validate_ok ts v c :
  type_validate ts v c = Ok tt <-> exists t, In t ts /\ has_type v t.
Proof.
  unfold type_validate.
  destruct (str_mem (type_name v) ts) eqn:H1.
  - split; intros _; [|reflexivity]. exists (type_name v). split.
    + apply str_mem_In; exact H1.
    + apply type_name_has; left; reflexivity.
  - destruct (str_eqb (type_name v) (u "integer") && str_mem (u "number") ts)%bool eqn:H2.
    + split; intros _; [|reflexivity]. apply andb_true_iff in H2 as [H2 H3].
      exists (u "number"). split; [apply str_mem_In; exact H3|].
      apply type_name_has; right. split; [apply str_eqb_eq; exact H2|reflexivity].
    + split; intro H.
      * exfalso; exact (raise_verr_not_ok _ _ _ H).
      * exfalso. destruct H as [t [Hin Ht]]. apply type_name_has in Ht as [->|[Ht ->]].
        -- apply str_mem_In in Hin. congruence.
        -- apply str_mem_In in Hin. rewrite Hin, Ht in H2. discriminate H2.
Qed.

(** bounds *)
Lemma Qle_bool_false a b : Qle_bool a b = false <-> (b < a)%Q.
Proof.
  rewrite <- not_true_iff_false, Qle_bool_iff. split.
  - intro H. apply Qnot_le_lt; exact H.
  - intros H1 H2. exact (Qlt_not_le _ _ H1 H2).
Qed.
Lemma value_is_num v q : value_is v q <-> num_q v = Some q.
Proof. destruct v as [|[|]| | | | | |]; cbn [value_is num_q bool_z]; split; intro H; try discriminate; try contradiction; try (injection H as <-; reflexivity); subst q; reflexivity. Qed.
Lemma maximum_validate_ok d ex v c :
  maximum_validate d ex v c = Ok tt <->
  exists q, value_is v q /\ (q <= dec_q d)%Q /\ (ex = true -> (q < dec_q d)%Q).
Proof.
  unfold maximum_validate, py_ge_dec, py_gt_dec. setoid_rewrite value_is_num.
  destruct (num_q v) as [q|]; simpl.
  - destruct ex; rewrite if_raise_ok'.
    + rewrite Qle_bool_false. split.
      * intro H. exists q. repeat split; [apply Qlt_le_weak; exact H|auto].
      * intros (q' & Hq & _ & H). injection Hq as <-. apply H; reflexivity.
    + rewrite negb_false_iff, Qle_bool_iff. split.
      * intro H. exists q. repeat split; [exact H|discriminate].
      * intros (q' & Hq & H & _). injection Hq as <-. exact H.
  - destruct ex; simpl; split; try discriminate; intros (q & Hq & _); discriminate.
Qed.
Lemma minimum_validate_ok d ex v c :
  minimum_validate d ex v c = Ok tt <->
  exists q, value_is v q /\ (dec_q d <= q)%Q /\ (ex = true -> (dec_q d < q)%Q).
Proof.
  unfold minimum_validate, py_le_dec, py_lt_dec. setoid_rewrite value_is_num.
  destruct (num_q v) as [q|]; simpl.
  - destruct ex; rewrite if_raise_ok'.
    + rewrite Qle_bool_false. split.
      * intro H. exists q. repeat split; [apply Qlt_le_weak; exact H|auto].
      * intros (q' & Hq & _ & H). injection Hq as <-. apply H; reflexivity.
    + rewrite negb_false_iff, Qle_bool_iff. split.
      * intro H. exists q. repeat split; [exact H|discriminate].
      * intros (q' & Hq & H & _). injection Hq as <-. exact H.
  - destruct ex; simpl; split; try discriminate; intros (q & Hq & _); discriminate.
Qed.

(** sizes *)
Lemma py_len_size v n : py_len v = Ok n <-> size_is v n.
Proof.
  destruct v; simpl; split; intro H; try discriminate; try contradiction; congruence.
Qed.
Lemma min_len_ok k n v c : min_len_validate k n v c = Ok tt <-> exists s, size_is v s /\ n <= s.
Proof.
  unfold min_len_validate. rewrite bind_Ok. split.
  - intros (s & Hs & H). apply if_raise_ok in H. exists s. split; [apply py_len_size; exact Hs|lia].
  - intros (s & Hs & H). exists s. split; [apply py_len_size; exact Hs|]. apply if_raise_ok. lia.
Qed.
Lemma max_len_ok k n v c : max_len_validate k n v c = Ok tt <-> exists s, size_is v s /\ s <= n.
Proof.
  unfold max_len_validate. rewrite bind_Ok. split.
  - intros (s & Hs & H). apply if_raise_ok in H. exists s. split; [apply py_len_size; exact Hs|lia].
  - intros (s & Hs & H). exists s. split; [apply py_len_size; exact Hs|]. apply if_raise_ok. lia.
Qed.

(** substring *)
Lemma startswith_spec p s : startswith p s = true <-> exists b, s = p ++ b.
Proof.
  revert s; induction p as [|x p IH]; intro s; simpl.
  - split; eauto.
  - destruct s as [|y s].
    + split; [discriminate|]. intros [b H]; discriminate.
    + rewrite andb_true_iff, N.eqb_eq, IH. split.
      * intros [-> [b ->]]. exists b; reflexivity.
      * intros [b H]. injection H as -> ->. split; [reflexivity|exists b; reflexivity].
Qed.
Lemma str_in_spec p s : str_in p s = true <-> exists a b, s = a ++ p ++ b.
Proof.
  induction s as [|x s IH].
  - simpl. rewrite orb_false_r, startswith_spec. split.
    + intros [b H]. exists [], b. exact H.
    + intros (a & b & H). symmetry in H. apply app_eq_nil in H as [-> H]. exists b. symmetry; exact H.
  - cbn [str_in]. rewrite orb_true_iff, startswith_spec, IH. split.
    + intros [[b H]|(a & b & ->)].
      * exists [], b. exact H.
      * exists (x :: a), b. reflexivity.
    + intros (a & b & H). destruct a as [|y a].
      * left. exists b. exact H.
      * right. injection H as -> ->. exists a, b. reflexivity.
Qed.

Lemma py_eq_str_r v s : py_eq v (VStr s) = true <-> v = VStr s.
Proof.
  destruct v; simpl; split; intro H; try discriminate.
  - apply str_eqb_eq in H; congruence.
  - injection H as ->. apply str_eqb_refl.
Qed.
Lemma py_contains_ok name v : py_contains name v = Ok true <-> has_name v name.
Proof.
  destruct v; simpl; split; intro H; try discriminate; try contradiction.
  - apply str_in_spec. congruence.
  - f_equal. apply str_in_spec. exact H.
  - assert (H' : existsb (fun x => py_eq x (VStr name)) l = true) by congruence.
    apply existsb_exists in H' as (x & Hx & Hx'). apply py_eq_str_r in Hx'. subst; exact Hx.
  - f_equal. apply existsb_exists. exists (VStr name). split; [exact H|apply py_eq_str_r; reflexivity].
  - apply dmem_In. congruence.
  - f_equal. apply dmem_In. exact H.
Qed.
Lemma required_ok names v c :
  required_validate names v c = Ok tt <-> forall name, In name names -> has_name v name.
Proof.
  unfold required_validate. rewrite for_each_Ok, Forall_forall.
  split; intros H name Hin; specialize (H name Hin).
  - apply bind_Ok in H as (b & Hb & H). apply if_raise_ok in H. subst b.
    apply py_contains_ok; exact Hb.
  - apply bind_Ok. exists true. split; [apply py_contains_ok; exact H|reflexivity].
Qed.
Lemma dep_required_ok m v c :
  dep_required_validate m v c = Ok tt <->
  match v with
  | VDict d => forall key names, In (key, names) m -> In key (dkeys d) ->
                 forall name, In name names -> In name (dkeys d)
  | _ => True
  end.
Proof.
  unfold dep_required_validate. destruct v; try (split; intros; [exact I|reflexivity]).
  rewrite for_each_Ok, Forall_forall. split.
  - intros H key names Hin Hkey name Hname. specialize (H _ Hin). simpl in H.
    apply dmem_In in Hkey. rewrite Hkey in H.
    rewrite for_each_Ok, Forall_forall in H. specialize (H _ Hname).
    apply if_raise_ok in H. apply dmem_In; exact H.
  - intros H [key names] Hin. destruct (dmem key d) eqn:Hk; [|reflexivity].
    apply for_each_Ok, Forall_forall. intros name Hname. apply if_raise_ok.
    apply dmem_In. apply dmem_In in Hk. exact (H _ _ Hin Hk _ Hname).
Qed.

(** unique *)
Lemma py_iter_ok v l : py_iter v = Ok l <-> iterable v l.
Proof.
  destruct v; simpl; split; intro H; try discriminate; try contradiction; try congruence.
  - injection H as <-. unfold dkeys. rewrite map_map. reflexivity.
  - subst l. unfold dkeys. rewrite map_map. reflexivity.
Qed.

(** [eq] on rationals is symmetric, so scalar [py_eq] is. *)
Lemma Qeq_bool_sym a b : Qeq_bool a b = Qeq_bool b a.
Proof.
  apply eq_true_iff_eq. rewrite !Qeq_bool_iff. split; intro H; symmetry; exact H.
Qed.
Lemma opt_q_eqb_sym a b : opt_q_eqb a b = opt_q_eqb b a.
Proof. destruct a, b; simpl; try reflexivity. apply Qeq_bool_sym. Qed.
Lemma py_eq_sym_hashable a b : hashable a = true -> hashable b = true -> py_eq a b = py_eq b a.
Proof.
  destruct a, b; simpl; intros Ha Hb; try discriminate; try reflexivity;
    try apply Qeq_bool_sym; try apply str_eqb_sym.
Qed.

Definition all_distinct (l : list pv) : Prop :=
  forall i j x y, (i < j)%nat -> nth_error l i = Some x -> nth_error l j = Some y -> py_eq x y = false.
Lemma unstructured_hashable v : unstructured v <-> hashable v = true.
Proof. destruct v; simpl; split; intro H; try discriminate; try contradiction; auto. Qed.
Lemma equal_values_eq x y : unstructured x -> unstructured y -> (equal_values x y <-> py_eq x y = true).
Proof.
  assert (Hn : forall a b, opt_q_eqb (num_q a) (num_q b) = true <-> exists p q, value_is a p /\ value_is b q /\ (p == q)%Q).
  { intros a b. setoid_rewrite value_is_num. destruct (num_q a) as [p|], (num_q b) as [q|]; simpl.
    - rewrite Qeq_bool_iff. split; [intro H; exists p, q; auto|]. intros (p' & q' & [= <-] & [= <-] & H). exact H.
    - split; [discriminate|]. intros (? & ? & _ & ? & _); discriminate.
    - split; [discriminate|]. intros (? & ? & ? & _); discriminate.
    - split; [discriminate|]. intros (? & ? & ? & _); discriminate. }
  intros Hx Hy. destruct x, y; try contradiction; cbn [equal_values py_eq]; try (symmetry; apply Hn).
  - split; auto.
  - rewrite str_eqb_eq. reflexivity.
Qed.
Lemma all_different_distinct l : (forall y, In y l -> unstructured y) -> (all_different l <-> all_distinct l).
Proof.
  intro Hu. split; intros H i j x y Hij Hx Hy; specialize (H i j x y Hij Hx Hy);
    pose proof (equal_values_eq x y (Hu _ (nth_error_In _ _ Hx)) (Hu _ (nth_error_In _ _ Hy))) as He.
  - destruct (py_eq x y); [|reflexivity]. exfalso. apply H, He. reflexivity.
  - rewrite He. congruence.
Qed.
Lemma unique_loop_ok seen i l c :
  unique_loop seen i l c = Ok tt <->
  (forall y, In y l -> hashable y = true) /\
  (forall x y, In x seen -> In y l -> py_eq x y = false) /\ all_distinct l.
Proof.
  revert seen i; induction l as [|x l IH]; intros seen i; cbn [unique_loop].
  - split; [|reflexivity]. intros _. repeat split.
    + intros y [].
    + intros a b _ [].
    + intros [|a] b x y _ Hx; discriminate.
  - destruct (hashable x) eqn:Hh.
    + destruct (existsb (fun y => py_eq y x) seen) eqn:Hex.
      * split; intro H; [exfalso; exact (raise_verr_not_ok _ _ _ H)|].
        destruct H as (_ & H & _). apply existsb_exists in Hex as (y & Hy & Hyx).
        rewrite (H y x Hy (or_introl eq_refl)) in Hyx. discriminate.
      * rewrite IH. split.
        -- intros (H1 & H2 & H3). repeat split.
           ++ intros y [<-|Hy]; auto.
           ++ intros a b Ha [<-|Hb].
              ** destruct (py_eq a x) eqn:E'; [|reflexivity].
                 exfalso. assert (Ht : existsb (fun y => py_eq y x) seen = true)
                   by (apply existsb_exists; exists a; auto). congruence.
              ** apply H2; [right; exact Ha|exact Hb].
           ++ intros i' j a b Hij Ha Hb. destruct j as [|j]; [lia|]. simpl in Hb.
              destruct i' as [|i']; simpl in Ha.
              ** injection Ha as <-. apply H2; [left; reflexivity|].
                 apply nth_error_In in Hb; exact Hb.
              ** apply (H3 i' j); [lia|assumption|assumption].
        -- intros (H1 & H2 & H3). repeat split.
           ++ intros y Hy; apply H1; right; exact Hy.
           ++ intros a b [<-|Ha] Hb.
              ** apply In_nth_error in Hb as [j Hj]. apply (H3 0%nat (S j)); [lia|reflexivity|exact Hj].
              ** apply H2; [exact Ha|right; exact Hb].
           ++ intros i' j a b Hij Ha Hb. apply (H3 (S i') (S j)); [lia|exact Ha|exact Hb].
    + split; [discriminate|]. intros (H & _). specialize (H x (or_introl eq_refl)). congruence.
Qed.
Lemma unique_ok v c :
  unique_validate v c = Ok tt <->
  exists elems, iterable v elems /\ (forall y, In y elems -> unstructured y) /\ all_different elems.
Proof.
  unfold unique_validate. rewrite bind_Ok. split.
  - intros (l & Hl & H). apply unique_loop_ok in H as (H1 & _ & H3).
    assert (Hu : forall y, In y l -> unstructured y) by (intros y Hy; apply unstructured_hashable, H1, Hy).
    exists l. split; [apply py_iter_ok; exact Hl|]. split; [exact Hu|]. apply all_different_distinct; assumption.
  - intros (l & Hl & H1 & H3). exists l. split; [apply py_iter_ok; exact Hl|].
    apply unique_loop_ok. split; [intros y Hy; apply unstructured_hashable, H1, Hy|].
    split; [intros x y []|]. apply all_different_distinct; assumption.
Qed.

(** multipleOf *)
Lemma scaled_int m e : 0 <= e -> (scaled 10 m e == inject_Z (m * 10 ^ e))%Q.
Proof. intro H. unfold scaled. destruct (Z.leb_spec 0 e); [reflexivity|lia]. Qed.
(** Common exponent: [dec_q a] times [10^(-e)]. *)
Lemma pow10_pos n : 0 <= n -> 0 < 10 ^ n.
Proof. intro H. apply Z.pow_pos_nonneg; lia. Qed.
Lemma scaled_shift m k e0 : 0 <= k ->
  (scaled 10 m (e0 + k) == scaled 10 (m * 10 ^ k) e0)%Q.
Proof.
  intro Hk. unfold scaled.
  destruct (Z.leb_spec 0 (e0 + k)), (Z.leb_spec 0 e0); try lia.
  - replace (m * 10 ^ (e0 + k)) with (m * 10 ^ k * 10 ^ e0); [reflexivity|].
    rewrite Z.pow_add_r by lia. ring.
  - unfold Qeq, inject_Z. simpl.
    rewrite Z2Pos.id by (apply pow10_pos; lia).
    rewrite Z.mul_1_r, <- Z.mul_assoc, <- Z.pow_add_r by lia. f_equal. f_equal. lia.
  - unfold Qeq. simpl. rewrite !Z2Pos.id by (apply pow10_pos; lia).
    rewrite <- Z.mul_assoc, <- Z.pow_add_r by lia. f_equal. f_equal. lia.
Qed.
Lemma scaled_mul m z e0 : (scaled 10 (z * m) e0 == inject_Z z * scaled 10 m e0)%Q.
Proof.
  unfold scaled. destruct (0 <=? e0); unfold Qeq; simpl; ring.
Qed.
Lemma scaled_inj a b e0 : (scaled 10 a e0 == scaled 10 b e0)%Q -> a = b.
Proof.
  unfold scaled. destruct (Z.leb_spec 0 e0); unfold Qeq; simpl.
  - rewrite !Z.mul_1_r. pose proof (pow10_pos e0 H). nia.
  - rewrite Z2Pos.id by (apply pow10_pos; lia).
    pose proof (pow10_pos (- e0) ltac:(lia)). nia.
Qed.
Lemma scaled_zero e0 : (scaled 10 0 e0 == 0)%Q.
Proof. unfold scaled. destruct (0 <=? e0); unfold Qeq; simpl; reflexivity. Qed.

Lemma dec_rem_ok a b :
  dec_rem_is_zero a b = Ok true <->
  exists z, (dec_q a == inject_Z z * dec_q b)%Q /\ Z.abs z < 10 ^ 28 /\ ~ (dec_q b == 0)%Q.
Proof.
  unfold dec_rem_is_zero, dec_q.
  set (e := Z.min (de a) (de b)).
  set (x := dc a * 10 ^ (de a - e)). set (y := dc b * 10 ^ (de b - e)).
  assert (Ha : (scaled 10 (dc a) (de a) == scaled 10 x e)%Q).
  { unfold x. replace (de a) with (e + (de a - e)) at 1 by lia. apply scaled_shift. lia. }
  assert (Hb : (scaled 10 (dc b) (de b) == scaled 10 y e)%Q).
  { unfold y. replace (de b) with (e + (de b - e)) at 1 by lia. apply scaled_shift. lia. }
  assert (Hz : (scaled 10 (dc b) (de b) == 0)%Q <-> y = 0).
  { rewrite Hb. rewrite <- (scaled_zero e). split; [apply scaled_inj|intros ->; reflexivity]. }
  assert (Hm : forall z, (scaled 10 (dc a) (de a) == inject_Z z * scaled 10 (dc b) (de b))%Q <-> x = z * y).
  { intro z. rewrite Ha, Hb, <- scaled_mul. split; [apply scaled_inj|intros ->; reflexivity]. }
  clearbody x y.
  destruct (Z.eqb_spec y 0) as [Hy|Hy].
  - split; [discriminate|]. intros (z & _ & _ & H). exfalso; apply H, Hz, Hy.
  - destruct (Z.leb_spec (10 ^ 28) (Z.abs (Z.quot x y))) as [Hq|Hq].
    + split; [discriminate|]. intros (z & H1 & H2 & _). exfalso. apply Hm in H1. subst x.
      rewrite Z.quot_mul in Hq by exact Hy. lia.
    + split; intro H.
      * assert (Hr : Z.rem x y = 0) by (apply Z.eqb_eq; congruence).
        exists (Z.quot x y). split; [|split; [exact Hq|intro H0; apply Hy, Hz, H0]].
        apply Hm. pose proof (Z.quot_rem' x y). rewrite Hr in H0. rewrite Z.mul_comm. lia.
      * destruct H as (z & H1 & _). apply Hm in H1. subst x. rewrite Z.rem_mul by exact Hy. reflexivity.
Qed.
Lemma dec_of_value_ok E v d : dec_of_value E v = Ok d <-> decimal_text E v d.
Proof.
  destruct v; simpl; split; intro H; try discriminate; try contradiction; try congruence; try exact H.
Qed.
Lemma multiple_of_ok E m v c :
  multiple_of_validate E m v c = Ok tt <->
  exists d, decimal_text E v d /\
    exists z, (dec_q d == inject_Z z * dec_q m)%Q /\ Z.abs z < 10 ^ 28 /\ ~ (dec_q m == 0)%Q.
Proof.
  unfold multiple_of_validate. rewrite bind_Ok. split.
  - intros (d & Hd & H). apply bind_Ok in H as (b & Hb & H). apply if_raise_ok in H. subst b.
    exists d. split; [apply dec_of_value_ok with (E := E); exact Hd|]. apply dec_rem_ok; exact Hb.
  - intros (d & Hd & H). exists d. split; [apply dec_of_value_ok; exact Hd|].
    apply bind_Ok. exists true. split; [apply dec_rem_ok; exact H|reflexivity].
Qed.

Lemma format_ok E f v c :
  format_validate E f v c = Ok tt <-> exists test, fmt E f = Some test /\ test v = Ok true.
Proof.
  unfold format_validate. destruct (fmt E f) as [t|].
  - rewrite bind_Ok. split.
    + intros (b & Hb & H). apply if_raise_ok in H. subst. eauto.
    + intros (t' & Ht & H). injection Ht as <-. exists true. split; [exact H|reflexivity].
  - split; [discriminate|]. intros (t & Ht & _); discriminate.
Qed.
Lemma pattern_ok E p v c :
  pattern_validate E p v c = Ok tt <-> exists s, v = VStr s /\ re_search E p s = true.
Proof.
  unfold pattern_validate. destruct v; split; intro H; try discriminate;
    try (destruct H as (s' & H & _); discriminate).
  - apply if_raise_ok in H. eauto.
  - destruct H as (s' & H & Hs). injection H as <-. apply if_raise_ok. exact Hs.
Qed.

(** enum and const *)
Section EnumConst.
  Context {node : Type} (view : node -> res (nview node)).

  (** the demand of [enum] on the unwrapped members *)
  Definition enum_first_match (l : list (nval node)) (v : pv) : Prop :=
    exists l1 y l2, l = l1 ++ y :: l2 /\
      (eq_raw view y v = Ok true /\ is_nbool y = is_bool v) /\
      (forall y', In y' l1 ->
         eq_raw view y' v = Ok false \/ (eq_raw view y' v = Ok true /\ is_nbool y' <> is_bool v)).

  Lemma tweak_loop_ok l v : enum_tweak_loop view l v = Ok true <-> enum_first_match l v.
  Proof.
    unfold enum_first_match. induction l as [|x l IH]; cbn [enum_tweak_loop].
    - split; [discriminate|]. intros ([|? ?] & y & l2 & H & _); discriminate.
    - rewrite bind_Ok. split.
      + intros (b & Hb & H). destruct b.
        * destruct (is_nbool x || is_bool v)%bool eqn:Hor.
          -- destruct (is_nbool x && is_bool v)%bool eqn:Hand.
             ++ exists [], x, l. repeat split; auto.
                ** apply andb_true_iff in Hand as [-> ->]; reflexivity.
                ** intros y' [].
             ++ apply IH in H as (l1 & y & l2 & -> & Hy & H). exists (x :: l1), y, l2.
                repeat split; try tauto. intros y' [<-|Hin]; [|auto].
                right. split; [exact Hb|]. destruct (is_nbool x), (is_bool v); discriminate.
          -- exists [], x, l. repeat split; auto.
             ++ apply orb_false_iff in Hor as [-> ->]; reflexivity.
             ++ intros y' [].
        * apply IH in H as (l1 & y & l2 & -> & Hy & H). exists (x :: l1), y, l2.
          repeat split; try tauto. intros y' [<-|Hin]; auto.
      + intros (l1 & y & l2 & Hl & [Hy1 Hy2] & H). destruct l1 as [|x' l1].
        * injection Hl as -> ->. exists true. split; [exact Hy1|]. rewrite Hy2.
          destruct (is_bool v); reflexivity.
        * injection Hl as -> ->.
          assert (Hrest : enum_tweak_loop view (l1 ++ y :: l2) v = Ok true).
          { apply IH. exists l1, y, l2. repeat split; auto. intros y' Hin; apply H; right; exact Hin. }
          destruct (H x' (or_introl eq_refl)) as [Hx|[Hx Hne]].
          -- exists false. split; [exact Hx|exact Hrest].
          -- exists true. split; [exact Hx|].
             destruct (is_nbool x'), (is_bool v); simpl; try congruence; exact Hrest.
  Qed.
  Lemma enum_in_ok l v : enum_in view l v = Ok true <->
    exists l1 y l2, l = l1 ++ y :: l2 /\ eq_raw view y v = Ok true /\
      (forall y', In y' l1 -> eq_raw view y' v = Ok false).
  Proof.
    induction l as [|x l IH]; cbn [enum_in].
    - split; [discriminate|]. intros ([|? ?] & y & l2 & H & _); discriminate.
    - rewrite bind_Ok. split.
      + intros (b & Hb & H). destruct b.
        * exists [], x, l. repeat split; auto. intros y' [].
        * apply IH in H as (l1 & y & l2 & -> & Hy & H). exists (x :: l1), y, l2.
          repeat split; auto. intros y' [<-|Hin]; auto.
      + intros (l1 & y & l2 & Hl & Hy & H). destruct l1 as [|x' l1].
        * injection Hl as -> ->. exists true. auto.
        * injection Hl as -> ->. exists false. split; [apply H; left; reflexivity|].
          apply IH. exists l1, y, l2. repeat split; auto. intros y' Hin; apply H; right; exact Hin.
  Qed.

  Lemma eq_raw_nbool y v : is_nbool y = true -> eq_raw view y v = Ok true ->
    py_eq v (VInt 1) = true \/ py_eq v (VInt 0) = true.
  Proof.
    destruct y; simpl; try discriminate. intros _ H.
    assert (H' : opt_q_eqb (Some (inject_Z (bool_z b))) (num_q v) = true) by (injection H; auto).
    assert (Hv : forall z, py_eq v (VInt z) = opt_q_eqb (num_q v) (Some (inject_Z z)))
      by (intro z; destruct v; reflexivity).
    rewrite !Hv. rewrite opt_q_eqb_sym in H'. destruct b; simpl in H'; auto.
  Qed.
  Lemma enum_validate_ok l v c : enum_validate view l v c = Ok tt <-> enum_first_match l v.
  Proof.
    unfold enum_validate.
    destruct (is_bool v && negb (existsb is_nbool l))%bool eqn:Hguard.
    - split; intro H; [exfalso; exact (raise_verr_not_ok _ _ _ H)|].
      exfalso. apply andb_true_iff in Hguard as [Hv Hn]. apply negb_true_iff in Hn.
      destruct H as (l1 & y & l2 & -> & [_ Hy] & _). rewrite Hv in Hy.
      assert (Ht : existsb is_nbool (l1 ++ y :: l2) = true).
      { apply existsb_exists. exists y. split; [apply in_or_app; right; left; reflexivity|exact Hy]. }
      congruence.
    - rewrite bind_Ok.
      destruct ((existsb is_nbool l && py_eq v (VInt 1)) || py_eq v (VInt 0))%bool eqn:Htw.
      + split.
        * intros (b & Hb & H). apply if_raise_ok in H. subst b. apply tweak_loop_ok; exact Hb.
        * intro H. exists true. split; [apply tweak_loop_ok; exact H|reflexivity].
      + (* outside the tweak no boolean member equals [v] *)
        apply orb_false_iff in Htw as [Ht1 Ht0].
        assert (Hnb : forall y, In y l -> eq_raw view y v = Ok true -> is_nbool y = is_bool v).
        { intros y Hin Heq. destruct (is_nbool y) eqn:Hy.
          - destruct (eq_raw_nbool y v Hy Heq) as [H1|H0]; [|congruence].
            assert (existsb is_nbool l = true) by (apply existsb_exists; eauto).
            rewrite H, H1 in Ht1. discriminate.
          - destruct (is_bool v) eqn:Hv; [|reflexivity]. simpl in Hguard.
            apply negb_false_iff in Hguard. rewrite Hguard in Ht1.
            destruct v; simpl in Hv; try discriminate.
            destruct b; simpl in Ht1, Ht0; discriminate. }
        split.
        * intros (b & Hb & H). apply if_raise_ok in H. subst b.
          apply enum_in_ok in Hb as (l1 & y & l2 & -> & Hy & H).
          exists l1, y, l2. repeat split; auto. apply Hnb; [apply in_or_app; right; left; reflexivity|exact Hy].
        * intros (l1 & y & l2 & -> & [Hy _] & H). exists true. split; [|reflexivity].
          apply enum_in_ok. exists l1, y, l2. repeat split; auto.
          intros y' Hin. destruct (H y' Hin) as [Hf|[Ht Hne]]; [exact Hf|].
          exfalso; apply Hne, Hnb; [apply in_or_app; left; exact Hin|exact Ht].
  Qed.

  Lemma eq_raw_scalar x v : scalar x ->
    exists b, eq_raw view x v = Ok b.
  Proof. destruct x; simpl; intro H; try contradiction; eauto. Qed.

  Lemma eq_raw_same x v : scalar x ->
    (eq_raw view x v = Ok true /\ is_nbool x = is_bool v) <-> same_scalar x v.
  Proof.
    destruct x as [|b|d|s|l|it]; simpl; intro Hs; try contradiction;
      destruct v as [|b'|z|f|d'|t|l'|it']; simpl; split;
      try (intros [H1 H2]; try discriminate); try contradiction; try tauto; auto.
    - destruct b, b'; simpl in H1; try reflexivity; discriminate.
    - intros ->. destruct b'; split; reflexivity.
    - apply Qeq_bool_iff. congruence.
    - intro H. split; [|reflexivity]. f_equal. apply Qeq_bool_iff. exact H.
    - apply Qeq_bool_iff. congruence.
    - intro H. split; [|reflexivity]. f_equal. apply Qeq_bool_iff. exact H.
    - apply Qeq_bool_iff. congruence.
    - intro H. split; [|reflexivity]. f_equal. apply Qeq_bool_iff. exact H.
    - apply str_eqb_eq. congruence.
    - intros ->. split; [|reflexivity]. f_equal. apply str_eqb_refl.
  Qed.

  Lemma const_validate_ok x v c : scalar x ->
    const_validate view x v c = Ok tt <-> same_scalar x v.
  Proof.
    intro Hs. rewrite <- eq_raw_same by exact Hs. unfold const_validate.
    destruct ((is_nbool x || is_bool v) && negb (is_nbool x && is_bool v))%bool eqn:Hg.
    - split; intro H; [exfalso; exact (raise_verr_not_ok _ _ _ H)|].
      destruct H as [_ H]. rewrite H in Hg. destruct (is_bool v); discriminate.
    - rewrite bind_Ok. split.
      + intros (b & Hb & H). apply if_raise_ok in H. subst b. split; [exact Hb|].
        destruct (is_nbool x), (is_bool v); simpl in Hg; try reflexivity; discriminate.
      + intros [H1 H2]. exists true. split; [exact H1|reflexivity].
  Qed.

  (** For scalar members no comparison can fail, so order does not matter. *)
  Lemma enum_scalars l v : (forall y, In y l -> scalar y) ->
    enum_first_match l v <-> exists y, In y l /\ same_scalar y v.
  Proof.
    intro Hs. split.
    - intros (l1 & y & l2 & -> & Hy & _). exists y.
      assert (Hin : In y (l1 ++ y :: l2)) by (apply in_or_app; right; left; reflexivity).
      split; [exact Hin|]. apply eq_raw_same; auto.
    - intros (y & Hin & Hy). induction l as [|x l IH]; [contradiction|].
      assert (Hsx : scalar x) by (apply Hs; left; reflexivity).
      destruct (eq_raw_scalar x v Hsx) as [b Hb].
      assert (Hdec : (eq_raw view x v = Ok true /\ is_nbool x = is_bool v) \/
                     (eq_raw view x v = Ok false \/ (eq_raw view x v = Ok true /\ is_nbool x <> is_bool v))).
      { destruct b; [|auto]. destruct (Bool.bool_dec (is_nbool x) (is_bool v)); auto. }
      destruct Hdec as [Hx|Hx].
      + exists [], x, l. repeat split; try tauto. intros y' [].
      + destruct Hin as [<-|Hin].
        * exfalso. apply eq_raw_same in Hy; [|exact Hsx]. destruct Hy as [H1 H2].
          destruct Hx as [Hx|[_ Hx]]; congruence.
        * destruct IH as (l1 & y0 & l2 & -> & H0 & H1); auto.
          { intros z Hz; apply Hs; right; exact Hz. }
          exists (x :: l1), y0, l2. repeat split; try tauto.
          intros y' [<-|Hy']; auto.
  Qed.
End EnumConst.
