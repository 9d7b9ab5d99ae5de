(** C42, C43: comparisons and sums of [JsonNumber]s. *)
From Verif Require Import PyBase PyVal PyBaseFacts LeafFacts ScalarFacts Numbers.
From Coq Require Import QArith Qabs Qround Lqa.
Local Open Scope Z_scope.

(** The number an operand stands for: ints, bools (as 0 and 1) and Decimals
    exactly, floats as the decimal text they print as. *)
Inductive stands_for : operand -> Q -> Prop :=
| sf_number d : stands_for (Wrapped d) (dec_q d)
| sf_int z : stands_for (Plain (VInt z)) (inject_Z z)
| sf_dec d : stands_for (Plain (VDec d)) (dec_q d)
| sf_false : stands_for (Plain (VBool false)) 0%Q
| sf_true : stands_for (Plain (VBool true)) 1%Q
| sf_float f : stands_for (Plain (VFloat f)) (dec_q (frepr f)).

Lemma Qle_bool_false a b : Qle_bool a b = false <-> (b < a)%Q.
Proof. rewrite <- not_true_iff_false, Qle_bool_iff. split; intro H; [apply Qnot_le_lt; exact H|apply Qlt_not_le; exact H]. Qed.

(** Comparing never fails on a number and is decided by exact values *)
Theorem C42_exact a o q : stands_for o q -> exists e l le g ge,
  num_eq a o = Ok e /\ num_lt a o = Ok l /\ num_le a o = Ok le /\ num_gt a o = Ok g /\ num_ge a o = Ok ge /\
  (e = true <-> dec_q a == q)%Q /\ (l = true <-> dec_q a < q)%Q /\ (g = true <-> q < dec_q a)%Q /\
  (le = true <-> dec_q a <= q)%Q /\ (ge = true <-> q <= dec_q a)%Q.
Proof.
  intro H. exists (cmp_eq a q), (cmp_lt a q), (cmp_le a q), (cmp_gt a q), (cmp_ge a q).
  do 5 (split; [destruct H; reflexivity|]). unfold cmp_eq, cmp_lt, cmp_le, cmp_gt, cmp_ge.
  rewrite !negb_true_iff, !Qle_bool_false, !Qle_bool_iff, Qeq_bool_iff. tauto.
Qed.
(** exactly one of [<], [==], [>] holds; [<=] and [>=] are their unions *)
Theorem C42_order a o q : stands_for o q ->
  ((num_lt a o = Ok true /\ num_eq a o = Ok false /\ num_gt a o = Ok false) \/
   (num_lt a o = Ok false /\ num_eq a o = Ok true /\ num_gt a o = Ok false) \/
   (num_lt a o = Ok false /\ num_eq a o = Ok false /\ num_gt a o = Ok true)) /\
  (num_le a o = Ok true <-> num_lt a o = Ok true \/ num_eq a o = Ok true) /\
  (num_ge a o = Ok true <-> num_gt a o = Ok true \/ num_eq a o = Ok true).
Proof.
  intro H. destruct (C42_exact a o q H) as (e & l & le & g & ge & -> & -> & -> & -> & -> & He & Hl & Hg & Hle & Hge).
  assert (K : forall x y : bool, @Ok bool x = Ok y <-> x = y) by (intros; split; congruence). rewrite !K. clear K.
  destruct (Q_dec (dec_q a) q) as [[L|L]|L].
  - assert (l = true) by tauto. assert (e = false) by (destruct e; [assert (dec_q a == q)%Q by tauto; lra|reflexivity]).
    assert (g = false) by (destruct g; [assert (q < dec_q a)%Q by tauto; lra|reflexivity]).
    assert (le = true) by (apply Hle; lra). assert (ge = false) by (destruct ge; [assert (q <= dec_q a)%Q by tauto; lra|reflexivity]).
    subst. intuition congruence.
  - assert (g = true) by tauto. assert (e = false) by (destruct e; [assert (dec_q a == q)%Q by tauto; lra|reflexivity]).
    assert (l = false) by (destruct l; [assert (dec_q a < q)%Q by tauto; lra|reflexivity]).
    assert (ge = true) by (apply Hge; lra). assert (le = false) by (destruct le; [assert (dec_q a <= q)%Q by tauto; lra|reflexivity]).
    subst. intuition congruence.
  - assert (e = true) by tauto. assert (g = false) by (destruct g; [assert (q < dec_q a)%Q by tauto; lra|reflexivity]).
    assert (l = false) by (destruct l; [assert (dec_q a < q)%Q by tauto; lra|reflexivity]).
    assert (le = true) by (apply Hle; lra). assert (ge = true) by (apply Hge; lra).
    subst. intuition congruence.
Qed.
(** anything else is refused with TypeError by every operator *)
Theorem C42_refused a v : (forall q, ~ stands_for (Plain v) q) ->
  num_eq a (Plain v) = Raise EType /\ num_lt a (Plain v) = Raise EType /\ num_le a (Plain v) = Raise EType /\
  num_gt a (Plain v) = Raise EType /\ num_ge a (Plain v) = Raise EType /\ num_add a (Plain v) = Raise EType.
Proof.
  intro H. destruct v as [|b|z|f|d|s|l|d]; cbn; auto 7; exfalso; [destruct b|..]; eapply H; constructor.
Qed.
Theorem C42_transitive a b c : num_lt a (Wrapped b) = Ok true -> num_lt b (Wrapped c) = Ok true -> num_lt a (Wrapped c) = Ok true.
Proof.
  cbn. unfold cmp_lt. intros [= H1] [= H2]. f_equal. rewrite negb_true_iff, Qle_bool_false in *. lra.
Qed.
Example C42_some : stands_for (Plain (VInt 3)) 3 /\ num_lt (Dec 25 (-1)) (Plain (VInt 3)) = Ok true /\
  num_eq (Dec 30 (-1)) (Plain (VInt 3)) = Ok true /\ num_gt (Dec 31 (-1)) (Plain (VBool true)) = Ok true /\
  num_eq (Dec 1 (-1)) (Plain (VFloat (PFloat 3602879701896397 (-55) (Dec 1 (-1))))) = Ok true /\
  num_eq (Dec 1 0) (Plain (VStr (u "1"))) = Raise EType.
Proof. split; [constructor|]. repeat split; vm_compute; reflexivity. Qed.

(** ** Sums *)
(** [d] has at most 28 significant digits *)
Definition short (d : dec) : Prop := Z.abs (dc d) < 10 ^ 28.
(** [d] is the 28-digit decimal nearest to [q], and when another one is just
    as near, [d] is the one whose 28th digit is even *)
Definition rounds_to (q : Q) (d : dec) : Prop :=
  short d /\ (forall d', short d' -> Qabs (q - dec_q d) <= Qabs (q - dec_q d'))%Q /\
  (forall d', short d' -> (Qabs (q - dec_q d) == Qabs (q - dec_q d'))%Q -> ~ (dec_q d == dec_q d')%Q -> 10 ^ 27 <= Z.abs (dc d) /\ Z.Even (dc d)).

Lemma at_exp d e : e <= de d -> (dec_q d == scaled 10 (dc d * 10 ^ (de d - e)) e)%Q.
Proof. intro H. unfold dec_q. replace (de d) with (e + (de d - e)) at 1 by lia. apply scaled_shift. lia. Qed.
Lemma scaled_add a b e : (scaled 10 (a + b) e == scaled 10 a e + scaled 10 b e)%Q.
Proof. unfold scaled. destruct (0 <=? e); unfold Qeq, Qplus, inject_Z; cbn [Qnum Qden]; rewrite ?Pos2Z.inj_mul; ring. Qed.
Lemma scaled_sub a b e : (scaled 10 (a - b) e == scaled 10 a e - scaled 10 b e)%Q.
Proof. unfold scaled. destruct (0 <=? e); unfold Qeq, Qminus, Qplus, Qopp, inject_Z; cbn [Qnum Qden]; rewrite ?Pos2Z.inj_mul; ring. Qed.
Lemma scaled_le a b e : (scaled 10 a e <= scaled 10 b e)%Q <-> a <= b.
Proof.
  unfold scaled. destruct (Z.leb_spec 0 e).
  - rewrite <- Zle_Qle. pose proof (pow10_pos e H). nia.
  - unfold Qle; simpl. nia.
Qed.
Lemma scaled_eq a b e : (scaled 10 a e == scaled 10 b e)%Q <-> a = b.
Proof. split; [apply scaled_inj|intros ->; reflexivity]. Qed.
Lemma scaled_abs a e : (Qabs (scaled 10 a e) == scaled 10 (Z.abs a) e)%Q.
Proof.
  unfold scaled. destruct (Z.leb_spec 0 e); [|reflexivity]. unfold inject_Z; simpl.
  rewrite Z.abs_mul, (Z.abs_eq (10 ^ e)) by (pose proof (pow10_pos e H); lia). reflexivity.
Qed.
Lemma dist a b e : (Qabs (scaled 10 a e - scaled 10 b e) == scaled 10 (Z.abs (a - b)) e)%Q.
Proof. rewrite <- scaled_sub. apply scaled_abs. Qed.

Lemma excess_spec fuel m : (Z.to_nat (Z.log2 m) <= fuel)%nat -> 0 <= m ->
  let k := Z.of_nat (excess fuel m) in m / 10 ^ k < 10 ^ 28 /\ (k = 0 \/ 10 ^ 27 <= m / 10 ^ k).
Proof.
  revert m. induction fuel as [|f IH]; intros m Hf Hm; cbn [excess].
  - cbv zeta. change (10 ^ Z.of_nat 0) with 1. rewrite Z.div_1_r. split; [|auto]. assert (Z.log2 m <= 0) by lia. destruct (Z.eq_dec m 0) as [->|]; [lia|].
    assert (m < 2 ^ Z.succ (Z.log2 m)) by (apply Z.log2_spec; lia). assert (2 ^ Z.succ (Z.log2 m) <= 2 ^ 1) by (apply Z.pow_le_mono_r; lia). lia.
  - change precision with 28. destruct (Z.ltb_spec m (10 ^ 28)) as [Hl|Hl].
    + cbn [Z.of_nat]. change (10 ^ 0) with 1. rewrite Z.div_1_r. auto.
    + assert (Hd : 0 <= m / 10) by (apply Z.div_pos; lia).
      assert (Hlog : (Z.to_nat (Z.log2 (m / 10)) <= f)%nat).
      { assert (Z.log2 (m / 10) <= Z.log2 (m / 2)) by (apply Z.log2_le_mono, Z.div_le_compat_l; lia).
        assert (Z.log2 (m / 2) = Z.log2 m - 1). { rewrite <- (Z.div2_div m), Z.div2_spec, Z.log2_shiftr by lia. assert (1 <= Z.log2 m) by (apply (Z.log2_le_mono 2); lia). lia. }
        lia. }
      specialize (IH (m / 10) Hlog Hd). cbv zeta in IH |- *. set (k := Z.of_nat (excess f (m / 10))) in *.
      rewrite Nat2Z.inj_succ. fold k. assert (Hk : 0 <= k) by (unfold k; lia). clearbody k.
      replace (m / 10 ^ Z.succ k) with (m / 10 / 10 ^ k).
      2:{ rewrite Z.div_div by (try apply pow10_pos; lia). f_equal. rewrite Z.pow_succ_r by lia. reflexivity. }
      split; [tauto|]. right. destruct IH as [IH1 [->|IH2]]; [|exact IH2].
      change (10 ^ 0) with 1. rewrite Z.div_1_r. apply Z.div_le_lower_bound; lia.
Qed.
(** [half_even m p] is a nearest multiple of [p], and even on a tie *)
Lemma half_even_spec m p : 0 <= m -> 0 < p -> let q := half_even m p in
  m / p <= q <= m / p + 1 /\ 2 * Z.abs (m - q * p) <= p /\ (2 * Z.abs (m - q * p) = p -> Z.even q = true) /\
  Z.abs (m - q * p) <= m mod p.
Proof.
  intros Hm Hp. unfold half_even. pose proof (Z.div_mod m p ltac:(lia)) as D. pose proof (Z.mod_pos_bound m p Hp) as B.
  set (q := m / p) in *. set (r := m mod p) in *. clearbody q r. cbv zeta.
  destruct (Z.ltb_spec p (2 * r)) as [H1|H1].
  - replace (m - (q + 1) * p) with (r - p) by lia. repeat split; try lia.
  - destruct (Z.eqb_spec (2 * r) p) as [H2|H2].
    + pose proof (Z.mod_pos_bound q 2 ltac:(lia)) as B2. assert (C : q mod 2 = 0 \/ q mod 2 = 1) by lia.
      assert (Ev : Z.even (q + q mod 2) = true).
      { rewrite Z.even_add, <- (Zmod_even q) || idtac. rewrite Zmod_odd. rewrite <- Z.negb_even. rewrite Z.even_add. destruct (Z.even q); reflexivity. }
      destruct C as [C|C]; rewrite C in *.
      * replace (m - (q + 0) * p) with r by lia. repeat split; try lia.
      * replace (m - (q + 1) * p) with (r - p) by lia. repeat split; try lia.
    + replace (m - q * p) with r by lia. repeat split; try lia.
Qed.
Lemma dec_round_ok d : rounds_to (dec_q d) (dec_round d).
Proof.
  destruct d as [m0 e0]. unfold dec_round. cbn [dc de]. set (m := Z.abs m0). assert (Hm : 0 <= m) by (unfold m; lia).
  pose proof (excess_spec _ m (le_n _) Hm) as [Ex1 Ex2].
  destruct (excess (Z.to_nat (Z.log2 m)) m) as [|k'].
  - (* kept *)
    change (10 ^ Z.of_nat 0) with 1 in Ex1. rewrite Z.div_1_r in Ex1. split; [exact Ex1|].
    assert (Z0 : (Qabs (dec_q (Dec m0 e0) - dec_q (Dec m0 e0)) == 0)%Q) by (setoid_replace (dec_q (Dec m0 e0) - dec_q (Dec m0 e0))%Q with 0%Q by ring; reflexivity).
    split; intros d' Hd'.
    + rewrite Z0. apply Qabs_nonneg.
    + intros E N. exfalso. apply N. rewrite Z0 in E. symmetry in E. apply Qabs_case in E || idtac.
      assert (K : (dec_q (Dec m0 e0) - dec_q d' == 0)%Q).
      { destruct (Qlt_le_dec (dec_q (Dec m0 e0) - dec_q d') 0) as [L|L].
        - rewrite Qabs_neg in E by lra. lra.
        - rewrite Qabs_pos in E by lra. lra. }
      lra.
  - set (k := Z.of_nat (S k')) in *. assert (Hk : 1 <= k) by (unfold k; lia). clearbody k. destruct Ex2 as [Ex2|Ex2]; [lia|].
    set (P := 10 ^ k) in *. assert (HP : 0 < P) by (apply pow10_pos; lia).
    assert (HP10 : P = 10 * 10 ^ (k - 1)) by (unfold P; rewrite <- Z.pow_succ_r by lia; f_equal; lia).
    pose proof (half_even_spec m P Hm HP) as (HQ1 & HQ2 & HQ3 & HQ4). cbv zeta in *. set (q := half_even m P) in *. clearbody q.
    assert (Hq0 : m / P <= q) by lia. change precision with 28. change (28 - 1) with 27.
    (* both shapes of the answer stand for sgn * q * P at exponent e0 *)
    set (ans := if q =? 10 ^ 28 then Dec (Z.sgn m0 * 10 ^ 27) (e0 + k + 1) else Dec (Z.sgn m0 * q) (e0 + k)).
    assert (Hsg : Z.sgn m0 = 1 \/ Z.sgn m0 = -1).
    { assert (m0 <> 0). { intro Z0. unfold m in Ex2. rewrite Z0 in Ex2. change (Z.abs 0) with 0 in Ex2. rewrite Z.div_0_l in Ex2 by lia. lia. } destruct m0; cbn; auto; lia. }
    assert (Hans : (dec_q ans == scaled 10 (Z.sgn m0 * (q * P)) e0)%Q).
    { unfold ans. destruct (Z.eqb_spec q (10 ^ 28)) as [->|Hq].
      - rewrite (at_exp _ e0) by (cbn; lia). cbn [dc de]. replace (e0 + k + 1 - e0) with (Z.succ k) by lia. rewrite Z.pow_succ_r by lia. fold P.
        replace (Z.sgn m0 * 10 ^ 27 * (10 * P)) with (Z.sgn m0 * (10 ^ 28 * P)); [reflexivity|]. change (10 ^ 28) with (10 * 10 ^ 27). ring.
      - rewrite (at_exp _ e0) by (cbn; lia). cbn [dc de]. replace (e0 + k - e0) with k by lia. fold P. rewrite Z.mul_assoc. reflexivity. }
    assert (Hsh : short ans).
    { unfold short, ans. destruct (Z.eqb_spec q (10 ^ 28)) as [Hq|Hq]; cbn [dc]; rewrite Z.abs_mul; replace (Z.abs (Z.sgn m0)) with 1 by lia; rewrite Z.mul_1_l; rewrite ?(Z.abs_eq q) by lia; [reflexivity|]. lia. }
    assert (Hbig : 10 ^ 27 <= Z.abs (dc ans)).
    { unfold ans. destruct (Z.eqb_spec q (10 ^ 28)) as [Hq|Hq]; cbn [dc]; rewrite Z.abs_mul; replace (Z.abs (Z.sgn m0)) with 1 by lia; rewrite Z.mul_1_l; rewrite ?(Z.abs_eq q) by lia; [reflexivity|]. lia. }
    assert (Hev : Z.even q = true -> Z.Even (dc ans)).
    { intro Ev. apply Z.even_spec in Ev. unfold ans. destruct (q =? 10 ^ 28); cbn [dc].
      - destruct Hsg as [->| ->]; apply Z.even_spec; reflexivity.
      - destruct Ev as [x ->]. exists (Z.sgn m0 * x). ring. }
    assert (Hself : (dec_q (Dec m0 e0) == scaled 10 (Z.sgn m0 * m) e0)%Q) by (unfold dec_q; cbn [dc de]; unfold m; rewrite Z.mul_comm, Z.abs_sgn; reflexivity).
    change (rounds_to (dec_q (Dec m0 e0)) ans). clearbody ans.
    (* distance comparison in integers at the exponent [f] *)
    assert (Main : forall d', short d' -> forall f, f = Z.min e0 (de d') ->
       let X := m * 10 ^ (e0 - f) in let Y := q * P * 10 ^ (e0 - f) in let W := Z.sgn m0 * (dc d' * 10 ^ (de d' - f)) in
       (Qabs (dec_q (Dec m0 e0) - dec_q ans) == scaled 10 (Z.abs (X - Y)) f)%Q /\
       (Qabs (dec_q (Dec m0 e0) - dec_q d') == scaled 10 (Z.abs (X - W)) f)%Q /\
       ((dec_q ans == dec_q d')%Q <-> Y = W) /\
       Z.abs (X - Y) <= Z.abs (X - W) /\ (Z.abs (X - Y) = Z.abs (X - W) -> Y <> W -> 2 * Z.abs (m - q * P) = P)).
    { intros d' Hd' f Hf X Y W.
      set (S0 := 10 ^ (e0 - f)) in *. assert (HS0 : 0 < S0) by (apply pow10_pos; lia).
      assert (EX : (dec_q (Dec m0 e0) == scaled 10 (Z.sgn m0 * X) f)%Q).
      { rewrite Hself. replace e0 with (f + (e0 - f)) at 1 by lia. rewrite scaled_shift by lia. fold S0. unfold X. rewrite Z.mul_assoc. reflexivity. }
      assert (EY : (dec_q ans == scaled 10 (Z.sgn m0 * Y) f)%Q).
      { rewrite Hans. replace e0 with (f + (e0 - f)) at 1 by lia. rewrite scaled_shift by lia. fold S0. unfold Y. rewrite !Z.mul_assoc. reflexivity. }
      assert (EW : (dec_q d' == scaled 10 (Z.sgn m0 * W) f)%Q).
      { rewrite (at_exp d' f) by lia. unfold W. set (t := dc d' * 10 ^ (de d' - f)). replace (Z.sgn m0 * (Z.sgn m0 * t)) with t by (destruct Hsg as [->| ->]; ring). reflexivity. }
      assert (AB : forall a b, Z.abs (Z.sgn m0 * a - Z.sgn m0 * b) = Z.abs (a - b)) by (intros; destruct Hsg as [->| ->]; lia).
      split; [rewrite EX, EY, dist, AB; reflexivity|]. split; [rewrite EX, EW, dist, AB; reflexivity|].
      split; [rewrite EY, EW, scaled_eq; destruct Hsg as [->| ->]; lia|].
      destruct (Z.le_gt_cases (e0 + k) (de d')) as [Hcase|Hcase].
      - (* coarser grid: W is a multiple of P*S0 *)
        assert (exists w, W = w * (P * S0)) as [w Ew].
        { exists (Z.sgn m0 * (dc d' * 10 ^ (de d' - e0 - k))). unfold W, P, S0. rewrite <- Z.pow_add_r by lia. rewrite <- !Z.mul_assoc, <- Z.pow_add_r by lia. do 3 f_equal. lia. }
        assert (EXY : X - Y = (m - q * P) * S0) by (unfold X, Y; ring). assert (EXW : X - W = (m - w * P) * S0) by (rewrite Ew; unfold X; ring).
        rewrite EXY, EXW, !Z.abs_mul, (Z.abs_eq S0) by lia.
        assert (NE : Y <> W <-> q <> w) by (rewrite Ew; unfold Y; split; intros N1 N2; apply N1; [rewrite N2; ring|apply (Z.mul_cancel_r q w (P * S0)); [clear - HP HS0; nia|rewrite <- N2; ring]]).
        assert (Dw : q = w \/ Z.abs (m - q * P) + Z.abs (m - w * P) >= P).
        { destruct (Z.eq_dec q w); [auto|right]. assert (P <= Z.abs ((q - w) * P)) by (rewrite Z.abs_mul, (Z.abs_eq P) by lia; assert (1 <= Z.abs (q - w)) by lia; clear - H HP; nia). lia. }
        split.
        + apply Z.mul_le_mono_nonneg_r; [lia|]. destruct Dw as [->|]; lia.
        + intros E N. apply NE in N. apply Z.mul_cancel_r in E; [|lia]. destruct Dw; [contradiction|lia].
      - (* finer grid: |d'| is below 10^27 * P *)
        assert (HWle : Z.abs W < 10 ^ 27 * (P * S0)).
        { unfold W. rewrite !Z.abs_mul. replace (Z.abs (Z.sgn m0)) with 1 by lia. rewrite Z.mul_1_l. rewrite (Z.abs_eq (10 ^ (de d' - f))) by (apply Z.lt_le_incl, pow10_pos; lia).
          assert (P * S0 = 10 ^ (e0 + k - f)) as -> by (unfold P, S0; rewrite <- Z.pow_add_r by lia; f_equal; lia).
          replace (e0 + k - f) with (Z.succ (de d' - f) + (e0 + k - de d' - 1)) by lia. rewrite Z.pow_add_r, Z.pow_succ_r by lia.
          unfold short in Hd'. set (T := 10 ^ (de d' - f)). assert (0 < T) by (apply pow10_pos; lia). assert (1 <= 10 ^ (e0 + k - de d' - 1)) by (pose proof (pow10_pos (e0 + k - de d' - 1) ltac:(lia)); lia).
          change (10 ^ 28) with (10 * 10 ^ 27) in Hd'. set (B := 10 ^ 27) in *. set (A := Z.abs (dc d')) in *. set (C := 10 ^ (e0 + k - de d' - 1)) in *. clearbody A T C. apply Z.lt_le_trans with (10 * B * T); [apply Z.mul_lt_mono_pos_r; assumption|]. replace (B * (10 * T * C)) with (10 * B * T * C) by ring. assert (0 <= 10 * B * T) by (apply Z.mul_nonneg_nonneg; [discriminate|lia]). clear - H0 H1. nia. }
        assert (Hr : Z.abs (X - Y) <= (m mod P) * S0).
        { unfold X, Y. replace (m * S0 - q * P * S0) with ((m - q * P) * S0) by ring. rewrite Z.abs_mul, (Z.abs_eq S0) by lia. apply Z.mul_le_mono_nonneg_r; lia. }
        assert (Hx : X = (m / P) * (P * S0) + (m mod P) * S0) by (unfold X; rewrite (Z.div_mod m P) at 1 by lia; ring).
        assert (10 ^ 27 * (P * S0) <= (m / P) * (P * S0)) by (apply Z.mul_le_mono_nonneg_r; [apply Z.mul_nonneg_nonneg; lia|exact Ex2]).
        split; [lia|]. intros E. exfalso. lia. }
    split; [exact Hsh|]. split; intros d' Hd'; destruct (Main d' Hd' _ eq_refl) as (A1 & A2 & A3 & A4 & A5).
    + rewrite A1, A2, scaled_le. exact A4.
    + intros E N. rewrite A1, A2, scaled_eq in E. split; [exact Hbig|]. apply Hev, HQ3, (A5 E). tauto.
Qed.

(** adding gives the exact sum rounded to 28 digits, half to even *)
Theorem C43_rounds a o q : stands_for o q -> exists d, num_add a o = Ok d /\ rounds_to (dec_q a + q) d.
Proof.
  assert (K : forall x y, rounds_to (dec_q x + dec_q y)%Q (dec_add x y)).
  { intros x y. unfold dec_add. set (e := Z.min (de x) (de y)).
    match goal with |- context [dec_round ?d] => pose proof (dec_round_ok d) as R end.
    assert (E : (dec_q x + dec_q y == dec_q (Dec (dc x * 10 ^ (de x - e) + dc y * 10 ^ (de y - e)) e))%Q).
    { rewrite (at_exp x e), (at_exp y e) by lia. unfold dec_q. cbn [dc de]. rewrite scaled_add. reflexivity. }
    unfold rounds_to in *. destruct R as (R1 & R2 & R3). split; [exact R1|]. split; intros d' Hd'.
    - rewrite E. apply R2, Hd'.
    - rewrite E. apply R3, Hd'. }
  assert (Hi : forall z, (dec_q (Dec z 0) == inject_Z z)%Q) by (intro z; unfold dec_q, scaled; cbn [dc de Z.leb Z.compare]; change (10 ^ 0) with 1; rewrite Z.mul_1_r; reflexivity).
  assert (R : forall x y d, (x == y)%Q -> rounds_to x d -> rounds_to y d).
  { intros x y d E (R1 & R2 & R3). split; [exact R1|]. split; intros d' Hd'; [rewrite <- E; apply R2, Hd'|intros E1; rewrite <- E in E1; apply R3; assumption]. }
  intro H. destruct H; cbn; eexists; (split; [reflexivity|]); try apply K.
  - eapply R; [|apply K]. rewrite Hi. reflexivity.
  - eapply R; [|apply K]. rewrite Qplus_comm. reflexivity.
Qed.
(** exact when the sum fits in 28 digits *)
Theorem C43_exact a o q s : stands_for o q -> short s -> (dec_q s == dec_q a + q)%Q ->
  exists d, num_add a o = Ok d /\ (dec_q d == dec_q a + q)%Q.
Proof.
  intros H Hs E. destruct (C43_rounds a o q H) as (d & Hd & _ & R & _). exists d. split; [exact Hd|].
  specialize (R s Hs). rewrite <- E in *. setoid_replace (dec_q s - dec_q s)%Q with 0%Q in R by ring. change (Qabs 0) with 0%Q in R.
  pose proof (Qabs_Qle_condition (dec_q s - dec_q d) 0) as [K _]. specialize (K R). lra.
Qed.
(** the order of the summands does not matter *)
Theorem C43_commutes a b : num_add a (Wrapped b) = num_add b (Wrapped a).
Proof. cbn. unfold dec_add. rewrite (Z.min_comm (de b)), Z.add_comm. reflexivity. Qed.
(** [int()] drops the fraction *)
Theorem C43_int a : int_part (dec_q a) (num_int a).
Proof. apply dec_int_part. Qed.

Example C43_some :
  num_add (Dec 1 0) (Wrapped (Dec 1 (-1))) = Ok (Dec 11 (-1)) /\ short (Dec 11 (-1)) /\
  num_add (Dec (10 ^ 28 - 1) 0) (Plain (VInt 1)) = Ok (Dec (10 ^ 27) 1) /\
  num_add (Dec (10 ^ 28) 0) (Wrapped (Dec 5 0)) = Ok (Dec (10 ^ 27) 1) /\
  num_add (Dec (10 ^ 28 + 10) 0) (Wrapped (Dec 5 0)) = Ok (Dec (10 ^ 27 + 2) 1) /\
  num_add (Dec (- 10 ^ 28) 0) (Plain (VBool true)) = Ok (Dec (1 - 10 ^ 28) 0).
Proof. repeat split; vm_compute; reflexivity. Qed.
(** so sums are not associative *)
Example C43_not_associative : exists a b c x y, num_add a (Wrapped b) = Ok x /\ num_add b (Wrapped c) = Ok y /\
  exists s t, num_add x (Wrapped c) = Ok s /\ num_add a (Wrapped y) = Ok t /\ num_eq s (Wrapped t) = Ok false.
Proof.
  exists (Dec (10 ^ 28) 0), (Dec 5 0), (Dec 5 0), (Dec (10 ^ 27) 1), (Dec 10 0).
  split; [vm_compute; reflexivity|]. split; [vm_compute; reflexivity|]. exists (Dec (10 ^ 27) 1), (Dec (10 ^ 27 + 1) 1).
  repeat split; vm_compute; reflexivity.
Qed.
