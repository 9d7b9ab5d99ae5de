(** C117: numbers that are not finite. *)
From Verif Require Import PyBase PyBaseFacts PyVal Errors Numbers Validators NonFinite LeafFacts ScalarFacts.
From Coq Require Import QArith Qabs.
From Coq Require Import Lia.
Local Open Scope Z_scope.

(** ** Specification: the order of the numbers with two infinities; a NaN is not
    comparable with anything, itself included *)
Inductive below : ext -> ext -> Prop :=
| below_finite x y : (x < y)%Q -> below (Finite x) (Finite y)
| below_minus_infinity y : below (Infinite true) (Finite y)
| below_plus_infinity x : below (Finite x) (Infinite false)
| below_infinities : below (Infinite true) (Infinite false).
Inductive same : ext -> ext -> Prop :=
| same_finite x y : (x == y)%Q -> same (Finite x) (Finite y)
| same_infinite s : same (Infinite s) (Infinite s).
Definition at_most (a b : ext) : Prop := below a b \/ same a b.

(** what a number is written as, the value that multipleOf works on *)
Definition written (x : xnum) : ext :=
  match x with NumFloat f => Finite (dec_q (frepr f)) | _ => num_ext x end.
Definition is_boolean (x : xnum) : Prop := exists b, x = NumBool b.
Definition nan (a : ext) : Prop := a = NotANumber.

(** what the keyword asks of a number *)
Definition demand (k : nkw) (x : xnum) : Prop :=
  match k with
  | NMinimum d false => at_most (dec_ext d) (num_ext x)
  | NMinimum d true => below (dec_ext d) (num_ext x)
  | NMaximum d false => at_most (num_ext x) (dec_ext d)
  | NMaximum d true => below (num_ext x) (dec_ext d)
  | NMultipleOf d =>
      match written x, dec_ext d with
      | Finite a, Finite b => exists z, (a == inject_Z z * b)%Q
      | Finite a, Infinite _ => (a == 0)%Q
      | _, _ => False
      end
  | NConst d => ~ is_boolean x /\ same (num_ext x) (dec_ext d)
  | NEnum l => ~ is_boolean x /\ exists d, In d l /\ same (num_ext x) (dec_ext d)
  | NType ts =>
      match x with
      | NumBool _ => In (u "boolean") ts
      | NumInt _ => In (u "integer") ts \/ In (u "number") ts
      | _ => In (u "number") ts
      end
  end.
(** a signaling NaN among the members of an enum that is looked at: none of the
    members before it is the value *)
Definition meets_signal (l : list xdec) (x : xnum) : Prop :=
  exists l1 l2, l = l1 ++ XNan true :: l2 /\ forall d, In d l1 -> ~ same (num_ext x) (dec_ext d).
(** when the operation on Decimals has no result *)
Definition trouble (k : nkw) (x : xnum) : Prop :=
  match k with
  | NMinimum d _ | NMaximum d _ => nan (num_ext x) \/ nan (dec_ext d)
  | NMultipleOf d =>
      is_boolean x \/ x = NumDec (XNan true) \/ d = XNan true \/
      match num_ext x, dec_ext d with
      | Infinite _, Finite _ | Infinite _, Infinite _ => True
      | Finite _, Finite b =>
          (b == 0)%Q \/
          exists a, written x = Finite a /\ (inject_Z (10 ^ 28) * Qabs b <= Qabs a)%Q
      | _, _ => False
      end
  | NConst d => x = NumDec (XNan true) \/ (~ is_boolean x /\ d = XNan true)
  | NEnum l => x = NumDec (XNan true) \/ (~ is_boolean x /\ meets_signal l x)
  | NType _ => False
  end.

(** ** The comparisons *)
Lemma leb_spec a b : ext_leb a b = true <-> at_most a b.
Proof.
  unfold at_most.
  destruct a as [x|[]|], b as [y|[]|]; cbn; split; intro H;
    try discriminate; try reflexivity;
    try solve [destruct H as [H|H]; inversion H];
    try solve [left; constructor]; try solve [right; constructor].
  - apply Qle_bool_iff in H. destruct (Qlt_le_dec x y) as [L|L].
    + left. constructor. exact L.
    + right. constructor. apply Qle_antisym; assumption.
  - apply Qle_bool_iff. destruct H as [H|H]; inversion H; subst.
    + apply Qlt_le_weak. assumption.
    + match goal with E : (_ == _)%Q |- _ => rewrite E end. apply Qle_refl.
Qed.
Lemma gt_spec a b : ~ nan a -> ~ nan b -> (ext_leb b a = false <-> below a b).
Proof.
  unfold nan.
  destruct a as [x|[]|], b as [y|[]|]; cbn; intros Ha Hb; split; intro H;
    try discriminate; try reflexivity; try solve [inversion H]; try solve [constructor];
    try solve [exfalso; congruence].
  - constructor. apply Qnot_le_lt. intro L. apply Qle_bool_iff in L. congruence.
  - inversion H; subst. destruct (Qle_bool y x) eqn:E; [|reflexivity].
    apply Qle_bool_iff in E. exfalso. eapply Qlt_not_le; eassumption.
Qed.
Lemma eqb_spec a b : ext_eqb a b = true <-> same a b.
Proof.
  destruct a as [x|s|], b as [y|t|]; cbn; split; intro H; try discriminate; try solve [inversion H].
  - constructor. apply Qeq_bool_iff. exact H.
  - inversion H; subst. apply Qeq_bool_iff. assumption.
  - apply Bool.eqb_prop in H. subst. constructor.
  - inversion H; subst. apply Bool.eqb_reflx.
Qed.
Lemma is_nan_spec a : is_nan a = true <-> nan a.
Proof. unfold nan. destruct a; cbn; split; congruence. Qed.
Lemma nan_dec a : {nan a} + {~ nan a}.
Proof. unfold nan. destruct a; [right|right|left]; congruence. Defined.
Lemma signals_spec d : signals d = true <-> d = XNan true.
Proof. destruct d as [|?|[]]; cbn; split; congruence. Qed.
Lemma num_signals_spec x : num_signals x = true <-> x = NumDec (XNan true).
Proof. destruct x as [| | | | |[|?|[]]]; cbn; split; congruence. Qed.

(** a comparison: no result with a NaN, and the relation otherwise *)
Lemma ordered_spec f a b (R : Prop) :
  (~ nan a -> ~ nan b -> (f a b = true <-> R)) ->
  (nan a \/ nan b -> ordered f a b = Raise EDecimal) /\
  (~ (nan a \/ nan b) -> exists r, ordered f a b = Ok r /\ (r = true <-> R)).
Proof.
  intro Hf. unfold ordered. split.
  - intros [H|H]; apply is_nan_spec in H; rewrite H; [reflexivity|].
    rewrite Bool.orb_true_r. reflexivity.
  - intro H. assert (Ha : ~ nan a) by tauto. assert (Hb : ~ nan b) by tauto.
    assert (Ea : is_nan a = false) by (destruct (is_nan a) eqn:E; [exfalso; apply Ha, is_nan_spec, E|reflexivity]).
    assert (Eb : is_nan b = false) by (destruct (is_nan b) eqn:E; [exfalso; apply Hb, is_nan_spec, E|reflexivity]).
    rewrite Ea, Eb. cbn. eexists. split; [reflexivity|]. apply Hf; assumption.
Qed.
Lemma x_le_spec a b :
  (nan a \/ nan b -> x_le a b = Raise EDecimal) /\
  (~ (nan a \/ nan b) -> exists r, x_le a b = Ok r /\ (r = true <-> at_most a b)).
Proof. apply ordered_spec. intros _ _. apply leb_spec. Qed.
Lemma x_ge_spec a b :
  (nan a \/ nan b -> x_ge a b = Raise EDecimal) /\
  (~ (nan a \/ nan b) -> exists r, x_ge a b = Ok r /\ (r = true <-> at_most b a)).
Proof. apply ordered_spec. intros _ _. apply leb_spec. Qed.
Lemma x_lt_spec a b :
  (nan a \/ nan b -> x_lt a b = Raise EDecimal) /\
  (~ (nan a \/ nan b) -> exists r, x_lt a b = Ok r /\ (r = true <-> below a b)).
Proof.
  apply ordered_spec. intros Ha Hb. rewrite Bool.negb_true_iff. apply gt_spec; assumption.
Qed.
Lemma x_gt_spec a b :
  (nan a \/ nan b -> x_gt a b = Raise EDecimal) /\
  (~ (nan a \/ nan b) -> exists r, x_gt a b = Ok r /\ (r = true <-> below b a)).
Proof.
  apply ordered_spec. intros Ha Hb. rewrite Bool.negb_true_iff. apply gt_spec; assumption.
Qed.
(** two numbers are in one of the orders *)
Lemma below_or a b : ~ nan a -> ~ nan b -> (~ below a b <-> at_most b a).
Proof.
  intros Ha Hb. rewrite <- gt_spec, <- leb_spec by assumption.
  destruct (ext_leb b a); split; congruence.
Qed.
Lemma at_most_or a b : ~ nan a -> ~ nan b -> (~ at_most a b <-> below b a).
Proof.
  intros Ha Hb. rewrite <- leb_spec, <- gt_spec by assumption.
  destruct (ext_leb a b); split; congruence.
Qed.

Lemma not_spec (r : bool) (P Q : Prop) : (r = true <-> P) -> (~ P <-> Q) -> (negb r = true <-> Q).
Proof.
  intros H1 H2. rewrite <- H2, <- H1. destruct r; cbn; split; congruence.
Qed.
Lemma x_eq_spec x d :
  (x = NumDec (XNan true) \/ d = XNan true -> x_eq x d = Raise EDecimal) /\
  (~ (x = NumDec (XNan true) \/ d = XNan true) ->
   exists r, x_eq x d = Ok r /\ (r = true <-> same (num_ext x) (dec_ext d))).
Proof.
  unfold x_eq. rewrite <- signals_spec, <- num_signals_spec.
  destruct (num_signals x), (signals d); cbn; split; intro H; try reflexivity; try tauto.
  - destruct H; discriminate.
  - eexists. split; [reflexivity|]. apply eqb_spec.
Qed.
Lemma boolean_dec x : {is_boolean x} + {~ is_boolean x}.
Proof. unfold is_boolean. destruct x; [left; eauto|right; intros [b' H]; discriminate..]. Defined.

(** the members of an enum, in order *)
Lemma enum_any_spec l x : x <> NumDec (XNan true) ->
  (meets_signal l x -> enum_any l x = Raise EDecimal) /\
  (~ meets_signal l x ->
   exists r, enum_any l x = Ok r /\ (r = true <-> exists d, In d l /\ same (num_ext x) (dec_ext d))).
Proof.
  intro Hx. induction l as [|d l [IHa IHb]]; cbn [enum_any].
  - split.
    + intros (l1 & l2 & E & _). destruct l1; discriminate.
    + intros _. exists false. split; [reflexivity|]. split; [discriminate|]. intros (d & [] & _).
  - destruct (x_eq_spec x d) as [Ha Hb].
    destruct (signals d) eqn:Ed.
    + apply signals_spec in Ed. rewrite Ha by (right; exact Ed). split; [reflexivity|].
      intro H. exfalso. apply H. exists [], l. subst. split; [reflexivity|]. intros ? [].
    + assert (Hd : d <> XNan true) by (intro H; apply signals_spec in H; congruence).
      destruct Hb as (r & Er & Hr); [tauto|]. rewrite Er. cbn. destruct r.
      * assert (Hs : same (num_ext x) (dec_ext d)) by (apply Hr; reflexivity). split.
        { intros (l1 & l2 & E & H). exfalso. destruct l1 as [|d1 l1]; injection E as -> E; [tauto|].
          apply (H d1); [left; reflexivity|exact Hs]. }
        { intros _. exists true. split; [reflexivity|]. split; [|reflexivity]. intros _.
          exists d. split; [left; reflexivity|exact Hs]. }
      * assert (Hs : ~ same (num_ext x) (dec_ext d)) by (intro H; apply Hr in H; discriminate).
        assert (Hm : meets_signal (d :: l) x <-> meets_signal l x).
        { split.
          - intros (l1 & l2 & E & H). destruct l1 as [|d1 l1]; injection E as -> E; [tauto|].
            exists l1, l2. split; [exact E|]. intros d' Hin. apply H. right. exact Hin.
          - intros (l1 & l2 & E & H). exists (d :: l1), l2. subst l. split; [reflexivity|].
            intros d' [<-|Hin]; [exact Hs|apply H, Hin]. }
        rewrite Hm. split; [exact IHa|]. intro H. destruct (IHb H) as (r & E & Hr').
        exists r. split; [exact E|]. rewrite Hr'. split.
        { intros (d' & Hin & Hs'). exists d'. split; [right; exact Hin|exact Hs']. }
        { intros (d' & [<-|Hin] & Hs'); [tauto|]. exists d'. split; assumption. }
Qed.

(** the remainder *)
Lemma rem_spec a b :
  ((dec_q b == 0)%Q \/ (inject_Z (10 ^ 28) * Qabs (dec_q b) <= Qabs (dec_q a))%Q ->
   dec_rem_is_zero a b = Raise EDecimal) /\
  (~ ((dec_q b == 0)%Q \/ (inject_Z (10 ^ 28) * Qabs (dec_q b) <= Qabs (dec_q a))%Q) ->
   exists r, dec_rem_is_zero a b = Ok r /\ (r = true <-> exists z, (dec_q a == inject_Z z * dec_q b)%Q)).
Proof.
  split; [apply dec_rem_raise|]. intro H.
  assert (Hb : ~ (dec_q b == 0)%Q) by tauto.
  assert (Hl : (Qabs (dec_q a) < inject_Z (10 ^ 28) * Qabs (dec_q b))%Q) by (apply Qnot_le_lt; tauto).
  destruct (dec_rem_total a b Hb Hl) as (r & Er). exists r. split; [exact Er|]. split.
  - intros ->. apply dec_rem_ok in Er. destruct Er as (z & Hz & _). exists z. exact Hz.
  - intros (z & Hz). enough (E : dec_rem_is_zero a b = Ok true) by congruence.
    apply dec_rem_ok. exists z. split; [exact Hz|]. split; [|exact Hb].
    rewrite Hz, Qabs_Qmult in Hl.
    assert (Hp : (0 < Qabs (dec_q b))%Q).
    { apply Qnot_le_lt. intro L. apply Hb. apply Qabs_Qle_condition in L. destruct L as [L1 L2].
      apply Qle_antisym; [exact L2|exact L1]. }
    apply (proj1 (Qmult_lt_r _ _ _ Hp)) in Hl. 
    change (Qabs (inject_Z z)) with (inject_Z (Z.abs z)) in Hl. rewrite <- Zlt_Qlt in Hl. exact Hl.
Qed.
Lemma dec_zero d : (dc d =? 0) = true <-> (dec_q d == 0)%Q.
Proof.
  rewrite Z.eqb_eq. unfold dec_q. split.
  - intros ->. apply scaled_zero.
  - intro H. rewrite <- (scaled_zero (de d)) in H. apply scaled_inj in H. exact H.
Qed.

(** ** The exact outcome of a keyword: the operation has no result, or the value is
    accepted as the keyword demands *)
Theorem C117_exact k x :
  (trouble k x -> check k x = Raise EDecimal) /\
  (~ trouble k x -> exists r, check k x = Ok r /\ (r = true <-> demand k x)).
Proof.
  destruct k as [d ex|d ex|d|d|l|ts]; cbn [trouble check].
  - destruct ex; cbn [demand].
    + destruct (x_le_spec (num_ext x) (dec_ext d)) as [Ha Hb]. split; intro H.
      * rewrite (Ha H). reflexivity.
      * destruct (Hb H) as (r & E & Hr). rewrite E. cbn. exists (negb r). split; [reflexivity|].
        apply (not_spec r _ _ Hr). apply at_most_or; tauto.
    + destruct (x_lt_spec (num_ext x) (dec_ext d)) as [Ha Hb]. split; intro H.
      * rewrite (Ha H). reflexivity.
      * destruct (Hb H) as (r & E & Hr). rewrite E. cbn. exists (negb r). split; [reflexivity|].
        apply (not_spec r _ _ Hr). apply below_or; tauto.
  - destruct ex; cbn [demand].
    + destruct (x_ge_spec (num_ext x) (dec_ext d)) as [Ha Hb]. split; intro H.
      * rewrite (Ha H). reflexivity.
      * destruct (Hb H) as (r & E & Hr). rewrite E. cbn. exists (negb r). split; [reflexivity|].
        apply (not_spec r _ _ Hr). apply at_most_or; tauto.
    + destruct (x_gt_spec (num_ext x) (dec_ext d)) as [Ha Hb]. split; intro H.
      * rewrite (Ha H). reflexivity.
      * destruct (Hb H) as (r & E & Hr). rewrite E. cbn. exists (negb r). split; [reflexivity|].
        apply (not_spec r _ _ Hr). apply below_or; tauto.
  - cbn [demand].
    assert (Hnb : forall y, ~ is_boolean y \/ is_boolean y) by (intro y; destruct (boolean_dec y); tauto).
    assert (Hfin : forall a b, written x = Finite (dec_q a) -> num_ext x = num_ext x ->
      (match num_ext x with Finite _ => True | _ => False end) -> ~ is_boolean x ->
      x <> NumDec (XNan true) -> to_dec x = Ok (XFin a) -> d = XFin b ->
      (is_boolean x \/ x = NumDec (XNan true) \/ d = XNan true \/
       match num_ext x, dec_ext d with
       | Infinite _, Finite _ | Infinite _, Infinite _ => True
       | Finite _, Finite b0 => (b0 == 0)%Q \/ exists a0, written x = Finite a0 /\ (inject_Z (10 ^ 28) * Qabs b0 <= Qabs a0)%Q
       | _, _ => False
       end <-> (dec_q b == 0)%Q \/ (inject_Z (10 ^ 28) * Qabs (dec_q b) <= Qabs (dec_q a))%Q)).
    { intros a b W _ F Hb Hs _ ->. cbn [dec_ext]. destruct (num_ext x); [|contradiction|contradiction]. split.
      - intros [H|[H|[H|[H|(a0 & E & H)]]]]; [tauto|tauto|discriminate|left; exact H|].
        right. rewrite W in E. injection E as <-. exact H.
      - intros [H|H]; right; right; right; [left; exact H|right; exists (dec_q a); split; assumption]. }
    assert (Hgo : forall a, to_dec x = Ok (XFin a) -> written x = Finite (dec_q a) ->
      (exists q, num_ext x = Finite q) -> ~ is_boolean x -> x <> NumDec (XNan true) ->
      (is_boolean x \/ x = NumDec (XNan true) \/ d = XNan true \/
       match num_ext x, dec_ext d with
       | Infinite _, Finite _ | Infinite _, Infinite _ => True
       | Finite _, Finite b0 => (b0 == 0)%Q \/ exists a0, written x = Finite a0 /\ (inject_Z (10 ^ 28) * Qabs b0 <= Qabs a0)%Q
       | _, _ => False
       end -> bind (to_dec x) (fun a => x_rem_is_zero a d) = Raise EDecimal) /\
      (~ (is_boolean x \/ x = NumDec (XNan true) \/ d = XNan true \/
       match num_ext x, dec_ext d with
       | Infinite _, Finite _ | Infinite _, Infinite _ => True
       | Finite _, Finite b0 => (b0 == 0)%Q \/ exists a0, written x = Finite a0 /\ (inject_Z (10 ^ 28) * Qabs b0 <= Qabs a0)%Q
       | _, _ => False
       end) -> exists r, bind (to_dec x) (fun a => x_rem_is_zero a d) = Ok r /\
         (r = true <-> match written x, dec_ext d with
                       | Finite a, Finite b => exists z, (a == inject_Z z * b)%Q
                       | Finite a, Infinite _ => (a == 0)%Q
                       | _, _ => False
                       end))).
    { intros a T W F Hb Hs. destruct d as [b|s|s].
      - destruct (rem_spec a b) as [R1 R2].
        rewrite (Hfin a b W eq_refl) by (try assumption; try reflexivity; destruct F as [q ->]; exact I).
        rewrite T, W. cbn [bind x_rem_is_zero dec_ext]. split; [exact R1|exact R2].
      - rewrite T, W. cbn [bind x_rem_is_zero dec_ext]. destruct F as [q ->]. split.
        + intros [H|[H|[H|H]]]; [tauto|tauto|discriminate|contradiction].
        + intros _. eexists. split; [reflexivity|]. apply dec_zero.
      - rewrite T, W. cbn [bind x_rem_is_zero dec_ext]. destruct F as [q ->]. destruct s; split; intro H.
        + reflexivity.
        + exfalso. apply H. tauto.
        + destruct H as [H|[H|[H|H]]]; [tauto|tauto|discriminate|contradiction].
        + exists false. split; [reflexivity|]. split; [discriminate|contradiction]. }
    destruct x as [b|z|f|s| |[a|s|s]].
    + cbn [to_dec bind]. split; [reflexivity|]. intro H. exfalso. apply H. left. exists b. reflexivity.
    + apply (Hgo (Dec z 0)); try reflexivity; try (intros [? ?]; discriminate); try discriminate; [|eexists; reflexivity].
      cbn. f_equal. unfold dec_q, scaled; cbn. rewrite Z.mul_1_r. reflexivity.
    + apply (Hgo (frepr f)); try reflexivity; try (intros [? ?]; discriminate); try discriminate. eexists; reflexivity.
    + cbn [to_dec bind num_ext written]. destruct d as [b|t|[]]; cbn [x_rem_is_zero dec_ext].
      * split; [reflexivity|]. intro H. exfalso. apply H. tauto.
      * split; [reflexivity|]. intro H. exfalso. apply H. tauto.
      * split; [reflexivity|]. intro H. exfalso. apply H. tauto.
      * split; [intros [[? H]|[H|[H|H]]]; (discriminate || contradiction)|]. intros _. exists false.
        split; [reflexivity|]. split; [discriminate|contradiction].
    + cbn [to_dec bind num_ext written]. destruct d as [b|t|[]]; cbn [x_rem_is_zero dec_ext orb];
        try (split; [intros [[? H]|[H|[H|H]]]; (discriminate || contradiction)|]; intros _; exists false;
             split; [reflexivity|]; split; [discriminate|contradiction]).
      split; [reflexivity|]. intro H. exfalso. apply H. tauto.
    + apply (Hgo a); try reflexivity; try (intros [? ?]; discriminate); try discriminate. eexists; reflexivity.
    + cbn [to_dec bind num_ext written dec_ext]. destruct d as [b|t|[]]; cbn [x_rem_is_zero dec_ext].
      * split; [reflexivity|]. intro H. exfalso. apply H. tauto.
      * split; [reflexivity|]. intro H. exfalso. apply H. tauto.
      * split; [reflexivity|]. intro H. exfalso. apply H. tauto.
      * split; [intros [[? H]|[H|[H|H]]]; (discriminate || contradiction)|]. intros _. exists false.
        split; [reflexivity|]. split; [discriminate|contradiction].
    + destruct s.
      * split; [|intro H; exfalso; apply H; tauto]. intros _. cbn [to_dec bind]. destruct d as [b|t|[]]; reflexivity.
      * cbn [to_dec bind num_ext written dec_ext]. destruct d as [b|t|[]]; cbn [x_rem_is_zero dec_ext orb];
          try (split; [intros [[? H]|[H|[H|H]]]; (discriminate || contradiction)|]; intros _; exists false;
               split; [reflexivity|]; split; [discriminate|contradiction]).
        split; [reflexivity|]. intro H. exfalso. apply H. tauto.
  - cbn [demand]. destruct (boolean_dec x) as [B|B].
    + destruct B as [b ->]. split.
      * intros [H|[H _]]; [discriminate|]. exfalso. apply H. exists b. reflexivity.
      * intros _. exists false. split; [reflexivity|]. split; [discriminate|]. intros [H _]. exfalso. apply H. exists b. reflexivity.
    + assert (E : match x with NumBool _ => Ok false | _ => x_eq x d end = x_eq x d).
      { destruct x; try reflexivity. exfalso. apply B. eexists. reflexivity. }
      rewrite E. destruct (x_eq_spec x d) as [Ha Hb]. split; intro H.
      * apply Ha. tauto.
      * destruct Hb as (r & Er & Hr); [tauto|]. exists r. split; [exact Er|]. tauto.
  - cbn [demand]. destruct (boolean_dec x) as [B|B].
    + destruct B as [b ->]. split.
      * intros [H|[H _]]; [discriminate|]. exfalso. apply H. exists b. reflexivity.
      * intros _. exists false. split; [reflexivity|]. split; [discriminate|]. intros [H _]. exfalso. apply H. exists b. reflexivity.
    + assert (E : match x with NumBool _ => Ok false | _ => if num_signals x then Raise EDecimal else enum_any l x end =
                  if num_signals x then Raise EDecimal else enum_any l x).
      { destruct x; try reflexivity. exfalso. apply B. eexists. reflexivity. }
      rewrite E. clear E. destruct (num_signals x) eqn:S.
      * split; [reflexivity|]. intro H. exfalso. apply H. left. apply num_signals_spec, S.
      * assert (Hx : x <> NumDec (XNan true)) by (intro H; apply num_signals_spec in H; congruence).
        destruct (enum_any_spec l x Hx) as [Ha Hb]. split; intro H.
        { apply Ha. tauto. }
        { destruct Hb as (r & Er & Hr); [tauto|]. exists r. split; [exact Er|]. tauto. }
  - split; [intros []|]. intros _. eexists. split; [reflexivity|]. cbn [demand].
    rewrite Bool.orb_true_iff, Bool.andb_true_iff, !str_mem_In, str_eqb_eq.
    destruct x; cbn [num_type]; (split; [intros [H|[E H]]; try (exfalso; revert E; clear; vm_compute; discriminate); auto|]);
      try (intro H; left; exact H).
    intros [H|H]; [left; exact H|]. right. split; [reflexivity|exact H].
Qed.

Lemma nan_unordered a : ~ below a NotANumber /\ ~ below NotANumber a /\ ~ same a NotANumber /\ ~ same NotANumber a.
Proof. repeat split; intro H; inversion H. Qed.

(** ** A schema with several number keywords *)
Definition met (x : xnum) (k : nkw) : Prop := ~ trouble k x /\ demand k x.
Theorem C117_schema ks x :
  (Forall (met x) ks /\ check_all ks x = Ok true) \/
  (exists l1 k l2, ks = l1 ++ k :: l2 /\ Forall (met x) l1 /\
     ((trouble k x /\ check_all ks x = Raise EDecimal) \/
      (~ trouble k x /\ ~ demand k x /\ check_all ks x = Ok false))).
Proof.
  induction ks as [|k ks IH].
  - left. split; [constructor|reflexivity].
  - destruct (C117_exact k x) as [Ha Hb]. cbn [check_all].
    assert (D : trouble k x \/ ~ trouble k x).
    { destruct k as [d ex|d ex|d|d|l|ts]; cbn [trouble]; try tauto.
      - destruct (nan_dec (num_ext x)), (nan_dec (dec_ext d)); tauto.
      - destruct (nan_dec (num_ext x)), (nan_dec (dec_ext d)); tauto.
      - destruct (boolean_dec x) as [B|B]; [tauto|].
        assert (S1 : x = NumDec (XNan true) \/ x <> NumDec (XNan true)).
        { rewrite <- num_signals_spec. destruct (num_signals x); [left|right]; congruence. }
        assert (S2 : d = XNan true \/ d <> XNan true).
        { rewrite <- signals_spec. destruct (signals d); [left|right]; congruence. }
        destruct S1 as [S1|S1]; [tauto|]. destruct S2 as [S2|S2]; [tauto|].
        destruct (num_ext x); [|destruct (dec_ext d); tauto|tauto].
        destruct (dec_ext d) as [b|?|]; [|tauto|tauto].
        destruct (Qeq_dec b 0) as [Z|Z]; [tauto|].
        destruct (written x) as [a|s|] eqn:W.
        + destruct (Qlt_le_dec (Qabs a) (inject_Z (10 ^ 28) * Qabs b)%Q) as [L|L].
          * right. intros [H|[H|[H|[H|(a' & E & H)]]]]; try tauto. injection E as <-.
            eapply Qlt_not_le; eassumption.
          * left. right. right. right. right. exists a. split; [reflexivity|exact L].
        + right. intros [H|[H|[H|[H|(a' & E & H)]]]]; try tauto. discriminate.
        + right. intros [H|[H|[H|[H|(a' & E & H)]]]]; try tauto. discriminate.
      - assert (S1 : x = NumDec (XNan true) \/ x <> NumDec (XNan true)).
        { rewrite <- num_signals_spec. destruct (num_signals x); [left|right]; congruence. }
        assert (S2 : d = XNan true \/ d <> XNan true).
        { rewrite <- signals_spec. destruct (signals d); [left|right]; congruence. }
        destruct (boolean_dec x); tauto.
      - assert (S1 : x = NumDec (XNan true) \/ x <> NumDec (XNan true)).
        { rewrite <- num_signals_spec. destruct (num_signals x); [left|right]; congruence. }
        destruct S1 as [S1|S1]; [tauto|]. destruct (boolean_dec x) as [B|B]; [tauto|].
        destruct (enum_any l x) as [r|e|] eqn:Ex.
        + right. intros [H|[_ H]]; [tauto|]. rewrite (proj1 (enum_any_spec l x S1) H) in Ex. discriminate.
        + left. right. split; [exact B|]. clear - S1 Ex. revert Ex. induction l as [|d l IHl]; [discriminate|].
          cbn [enum_any]. destruct (x_eq_spec x d) as [Ha Hb]. destruct (signals d) eqn:Ed.
          * intros _. apply signals_spec in Ed. subst. exists [], l. split; [reflexivity|]. intros ? [].
          * assert (Hd : d <> XNan true) by (intro H; apply signals_spec in H; congruence).
            destruct Hb as (r & Er & Hr); [tauto|]. rewrite Er. cbn. destruct r; [discriminate|].
            intro Ex. destruct (IHl Ex) as (l1 & l2 & E & H). exists (d :: l1), l2. subst l. split; [reflexivity|].
            intros d' [<-|Hin]; [intro Hs; apply Hr in Hs; discriminate|apply H, Hin].
        + right. intros [H|[_ H]]; [tauto|]. rewrite (proj1 (enum_any_spec l x S1) H) in Ex. discriminate. }
    destruct D as [D|D].
    + right. exists [], k, ks. split; [reflexivity|]. split; [constructor|]. left. split; [exact D|].
      rewrite (Ha D). reflexivity.
    + destruct (Hb D) as ([] & E & Hr).
      * rewrite E. cbn [bind]. destruct IH as [[IH1 IH2]|(l1 & k' & l2 & -> & IH1 & IH2)].
        { left. split; [constructor; [split; [exact D|apply Hr; reflexivity]|exact IH1]|exact IH2]. }
        { right. exists (k :: l1), k', l2. split; [reflexivity|].
          split; [constructor; [split; [exact D|apply Hr; reflexivity]|exact IH1]|exact IH2]. }
      * right. exists [], k, ks. split; [reflexivity|]. split; [constructor|]. right. split; [exact D|].
        split; [intro H; apply Hr in H; discriminate|]. rewrite E. reflexivity.
Qed.

(** ** The property, refuted: a value that json.loads reads, and a schema that
    constrains it, end in an exception that is not a ValidationError *)
Theorem C117_refuted :
  exists k x, check k x <> Ok true /\ check k x <> Ok false /\ nan (num_ext x).
Proof.
  exists (NMinimum (XFin (Dec 0 0)) false), NumFloatNan. repeat split; discriminate.
Qed.
(** with a bound, that is so for every NaN, whatever the bound, and for every
    value when the bound is a NaN; with multipleOf for every infinity *)
Theorem C117_nan_bound d ex x : nan (num_ext x) \/ nan (dec_ext d) ->
  check (NMinimum d ex) x = Raise EDecimal /\ check (NMaximum d ex) x = Raise EDecimal.
Proof. intro H. split; apply C117_exact; exact H. Qed.
Theorem C117_infinite_multiple d x s : num_ext x = Infinite s -> ~ nan (dec_ext d) ->
  check (NMultipleOf d) x = Raise EDecimal.
Proof.
  intros E N. apply C117_exact. cbn [trouble]. right. right. right. rewrite E.
  destruct (dec_ext d) eqn:Ed; [exact I|exact I|]. apply N. reflexivity.
Qed.

(** ** What holds: without a NaN, bounds, const, enum and type are decided by the
    order with infinities; a quiet NaN is refused by const, enum and multipleOf *)
Definition operands (k : nkw) : list xdec :=
  match k with
  | NMinimum d _ | NMaximum d _ | NMultipleOf d | NConst d => [d]
  | NEnum l => l
  | NType _ => []
  end.
Definition is_multiple_of (k : nkw) : Prop := exists d, k = NMultipleOf d.
Theorem C117_partial k x :
  ~ nan (num_ext x) -> (forall d, In d (operands k) -> ~ nan (dec_ext d)) -> ~ is_multiple_of k ->
  exists r, check k x = Ok r /\ (r = true <-> demand k x).
Proof.
  intros Hx Hd Hm. apply C117_exact.
  assert (Hs : x <> NumDec (XNan true)) by (intros ->; apply Hx; reflexivity).
  destruct k as [d ex|d ex|d|d|l|ts]; cbn [trouble operands] in *.
  - specialize (Hd d (or_introl eq_refl)). tauto.
  - specialize (Hd d (or_introl eq_refl)). tauto.
  - exfalso. apply Hm. exists d. reflexivity.
  - specialize (Hd d (or_introl eq_refl)). intros [H|[_ ->]]; [tauto|]. apply Hd. reflexivity.
  - intros [H|[_ (l1 & l2 & -> & _)]]; [tauto|]. apply (Hd (XNan true)); [|reflexivity].
    apply in_or_app. right. left. reflexivity.
  - tauto.
Qed.
Theorem C117_quiet_nan k x :
  nan (num_ext x) -> x <> NumDec (XNan true) -> ~ In (XNan true) (operands k) ->
  (forall d ex, k <> NMinimum d ex /\ k <> NMaximum d ex) -> (forall ts, k <> NType ts) ->
  check k x = Ok false.
Proof.
  intros Hn Hx Hd Hb Ht.
  assert (B : ~ is_boolean x) by (intros [b ->]; discriminate).
  assert (W : written x = NotANumber) by (destruct x; try exact Hn; discriminate).
  destruct (C117_exact k x) as [_ H]. destruct H as (r & E & Hr).
  - destruct k as [d ex|d ex|d|d|l|ts]; cbn [trouble operands] in *.
    + exfalso. apply (proj1 (Hb d ex)). reflexivity.
    + exfalso. apply (proj2 (Hb d ex)). reflexivity.
    + rewrite Hn. intros [H|[H|[H|H]]]; try tauto. apply Hd. left. exact H.
    + intros [H|[_ H]]; [tauto|]. apply Hd. left. exact H.
    + intros [H|[_ (l1 & l2 & -> & _)]]; [tauto|]. apply Hd. apply in_or_app. right. left. reflexivity.
    + tauto.
  - rewrite E. destruct r; [|reflexivity]. exfalso. assert (D : demand k x) by (apply Hr; reflexivity).
    destruct k as [d ex|d ex|d|d|l|ts]; cbn [demand] in D.
    + apply (proj1 (Hb d ex)). reflexivity.
    + apply (proj2 (Hb d ex)). reflexivity.
    + rewrite W in D. exact D.
    + destruct D as [_ D]. rewrite Hn in D. inversion D.
    + destruct D as [_ (d & _ & D)]. rewrite Hn in D. inversion D.
    + apply (Ht ts). reflexivity.
Qed.

(** ** On finite numbers this is the validator of Validators.v *)
Definition number_of (v : pv) : option xnum :=
  match v with
  | VBool b => Some (NumBool b)
  | VInt z => Some (NumInt z)
  | VFloat f => Some (NumFloat f)
  | VDec d => Some (NumDec (XFin d))
  | _ => None
  end.
Definition finite_numbers {node} : list dec -> list (nval node) := map (fun d => NNum d).
(** a keyword with finite operands, its validator, and the error it raises *)
Inductive compiled {node C} : nkw -> vobj node C -> vkind -> Prop :=
| compiled_minimum d ex : compiled (NMinimum (XFin d) ex) (VMinimum d ex) (KMinimum d)
| compiled_maximum d ex : compiled (NMaximum (XFin d) ex) (VMaximum d ex) (KMaximum d)
| compiled_multiple d : compiled (NMultipleOf (XFin d)) (VMultipleOf d) (KMultipleOf d)
| compiled_const d : compiled (NConst (XFin d)) (VConst (NNum d)) KConst
| compiled_enum l : compiled (NEnum (map XFin l)) (VEnum (finite_numbers l)) KEnum
| compiled_type ts : compiled (NType ts) (VType ts) (KType ts).

Lemma q_eqb_sym a b : Qeq_bool a b = Qeq_bool b a.
Proof.
  destruct (Qeq_bool a b) eqn:E, (Qeq_bool b a) eqn:F; try reflexivity.
  - apply Qeq_bool_iff in E. symmetry in E. apply Qeq_bool_iff in E. congruence.
  - apply Qeq_bool_iff in F. symmetry in F. apply Qeq_bool_iff in F. congruence.
Qed.
Lemma number_value v x : number_of v = Some x ->
  exists q, num_q v = Some q /\ num_ext x = Finite q /\ num_signals x = false.
Proof. destruct v; cbn; intro H; inversion H; subst; eexists; repeat split. Qed.
Lemma enum_any_in {node} (view : node -> res (nview node)) l v x : number_of v = Some x ->
  enum_in view (finite_numbers l) v = enum_any (map XFin l) x.
Proof.
  intro H. destruct (number_value v x H) as (q & Q & X & S). induction l as [|d l IH]; [reflexivity|].
  cbn [finite_numbers map enum_in enum_any eq_raw bind]. unfold x_eq. rewrite S. cbn [signals orb bind].
  rewrite X, Q. cbn [dec_ext ext_eqb opt_q_eqb bind]. rewrite q_eqb_sym.
  destruct (Qeq_bool q (dec_q d)); [reflexivity|exact IH].
Qed.
Lemma no_booleans {node} l : existsb (@is_nbool node) (finite_numbers l) = false.
Proof. induction l; [reflexivity|exact IHl]. Qed.
Lemma enum_tweak_in {node} (view : node -> res (nview node)) l v : is_bool v = false ->
  enum_tweak_loop view (finite_numbers l) v = enum_in view (finite_numbers l) v.
Proof.
  intro H. induction l as [|d l IH]; [reflexivity|].
  cbn [finite_numbers map enum_tweak_loop enum_in eq_raw bind is_nbool]. rewrite H. cbn [orb].
  destruct (opt_q_eqb _ _); [reflexivity|exact IH].
Qed.
Theorem C117_conservative {node C} (view : node -> res (nview node)) E rec lf k (o : vobj node C) e v x c :
  compiled k o e -> number_of v = Some x ->
  run_vobj view E rec lf o v c =
  (b <- check k x ;; if b then Ok tt else raise_verr e (ctx_path c)).
Proof.
  intros K N. destruct (number_value v x N) as (q & Q & X & S). destruct K; cbn [run_vobj check].
  - unfold minimum_validate, py_le_dec, py_lt_dec. rewrite Q, X. unfold x_le, x_lt, ordered.
    destruct ex; cbn [is_nan orb dec_ext bind ext_leb].
    + destruct (Qle_bool q (dec_q d)); reflexivity.
    + destruct (Qle_bool (dec_q d) q); reflexivity.
  - unfold maximum_validate, py_ge_dec, py_gt_dec. rewrite Q, X. unfold x_ge, x_gt, ordered.
    destruct ex; cbn [is_nan orb dec_ext bind ext_leb].
    + destruct (Qle_bool (dec_q d) q); reflexivity.
    + destruct (Qle_bool q (dec_q d)); reflexivity.
  - unfold multiple_of_validate. destruct v; inversion N; subst; reflexivity.
  - unfold const_validate. cbn [is_nbool orb andb negb eq_raw bind].
    destruct v; inversion N; subst; cbn [is_bool andb negb orb bind]; [reflexivity|..];
      rewrite Q; unfold x_eq; cbn [num_signals signals orb bind opt_q_eqb];
      rewrite X; cbn [dec_ext ext_eqb]; rewrite q_eqb_sym; reflexivity.
  - unfold enum_validate. rewrite no_booleans. destruct (is_bool v) eqn:B.
    + destruct v; try discriminate. inversion N; subst. reflexivity.
    + cbn [andb orb negb].
      assert (T : (if py_eq v (VInt 0) then enum_tweak_loop view (finite_numbers l) v else enum_in view (finite_numbers l) v) =
                  enum_any (map XFin l) x).
      { rewrite enum_tweak_in by exact B. rewrite (enum_any_in view l v x N). destruct (py_eq v (VInt 0)); reflexivity. }
      rewrite T. rewrite S. destruct v; inversion N; subst; try reflexivity. discriminate.
  - unfold type_validate.
    assert (T : type_name v = num_type x) by (destruct v; inversion N; subst; reflexivity).
    rewrite T. cbn [bind]. destruct (str_mem (num_type x) ts); [reflexivity|].
    cbn [orb]. destruct (str_eqb _ _ && _); reflexivity.
Qed.

(** ** Operators of JsonNumber *)
(** what an operand stands for: a float is the decimal text it prints as *)
Definition operand_ext (o : xoperand) : ext :=
  match o with XWrapped d => dec_ext d | XPlain x => written x end.
Definition operand_signals (o : xoperand) : Prop :=
  o = XWrapped (XNan true) \/ o = XPlain (NumDec (XNan true)).
Lemma operand_num_ext o : num_ext (operand_num o) = operand_ext o.
Proof. destruct o as [d|[| | | | |]]; reflexivity. Qed.
Lemma operand_num_signals o : operand_num o = NumDec (XNan true) <-> operand_signals o.
Proof.
  unfold operand_signals. split.
  - destruct o as [d|[| | | | |d]]; cbn; intro H; try discriminate; injection H as ->; tauto.
  - intros [-> | ->]; reflexivity.
Qed.
(** [<], [<=], [>], [>=] fail on a NaN and follow the order otherwise *)
Theorem C117_compare a o :
  ((nan (dec_ext a) \/ nan (operand_ext o)) ->
   w_lt a o = Raise EDecimal /\ w_le a o = Raise EDecimal /\ w_gt a o = Raise EDecimal /\ w_ge a o = Raise EDecimal) /\
  (~ (nan (dec_ext a) \/ nan (operand_ext o)) -> exists l le g ge,
   w_lt a o = Ok l /\ w_le a o = Ok le /\ w_gt a o = Ok g /\ w_ge a o = Ok ge /\
   (l = true <-> below (dec_ext a) (operand_ext o)) /\ (le = true <-> at_most (dec_ext a) (operand_ext o)) /\
   (g = true <-> below (operand_ext o) (dec_ext a)) /\ (ge = true <-> at_most (operand_ext o) (dec_ext a))).
Proof.
  unfold w_lt, w_le, w_gt, w_ge. rewrite operand_num_ext. split; intro H.
  - repeat split; [apply x_lt_spec|apply x_le_spec|apply x_gt_spec|apply x_ge_spec]; exact H.
  - destruct (proj2 (x_lt_spec _ _) H) as (l & E1 & H1). destruct (proj2 (x_le_spec _ _) H) as (le & E2 & H2).
    destruct (proj2 (x_gt_spec _ _) H) as (g & E3 & H3). destruct (proj2 (x_ge_spec _ _) H) as (ge & E4 & H4).
    exists l, le, g, ge. repeat (split; [assumption|]). assumption.
Qed.
(** [==] fails on a signaling NaN only; a quiet one equals nothing *)
Theorem C117_equal a o :
  ((a = XNan true \/ operand_signals o) -> w_eq a o = Raise EDecimal) /\
  (~ (a = XNan true \/ operand_signals o) ->
   exists r, w_eq a o = Ok r /\ (r = true <-> same (operand_ext o) (dec_ext a))).
Proof.
  unfold w_eq. rewrite <- operand_num_signals, <- operand_num_ext. split; intro H; apply x_eq_spec; tauto.
Qed.
(** a sum: a NaN stays a NaN, an infinity an infinity, opposite infinities have none *)
Inductive sum : ext -> ext -> ext -> Prop :=
| sum_nan_left b : sum NotANumber b NotANumber
| sum_nan_right a : sum a NotANumber NotANumber
| sum_infinite s : sum (Infinite s) (Infinite s) (Infinite s)
| sum_infinite_left s q : sum (Infinite s) (Finite q) (Infinite s)
| sum_infinite_right q s : sum (Finite q) (Infinite s) (Infinite s).
Definition finite (a : ext) : Prop := exists q, a = Finite q.
Definition opposite (a b : ext) : Prop := exists s, a = Infinite s /\ b = Infinite (negb s).
Lemma x_add_spec a b : ~ (finite (dec_ext a) /\ finite (dec_ext b)) ->
  ((a = XNan true \/ b = XNan true \/ opposite (dec_ext a) (dec_ext b)) -> x_add a b = Raise EDecimal) /\
  (~ (a = XNan true \/ b = XNan true \/ opposite (dec_ext a) (dec_ext b)) ->
   exists r, x_add a b = Ok r /\ sum (dec_ext a) (dec_ext b) (dec_ext r) /\ r <> XNan true).
Proof.
  unfold opposite, finite.
  destruct a as [x|s|s], b as [y|t|t]; cbn [x_add dec_ext]; intro F.
  - exfalso. apply F. split; eexists; reflexivity.
  - split; [intros [H|[H|(w & H & _)]]; discriminate|]. intros _. eexists. repeat split; [constructor|discriminate].
  - destruct t; split; intro H; try reflexivity.
    + exfalso. apply H. tauto.
    + destruct H as [H|[H|(w & H & _)]]; discriminate.
    + eexists. repeat split; [constructor|discriminate].
  - split; [intros [H|[H|(w & _ & H)]]; discriminate|]. intros _. eexists. repeat split; [constructor|discriminate].
  - destruct (Bool.eqb s t) eqn:E.
    + apply Bool.eqb_prop in E. subst t. split.
      * intros [H|[H|(w & H & H')]]; try discriminate. injection H as ->. injection H' as H'. destruct w; discriminate.
      * intros _. eexists. repeat split; [constructor|discriminate].
    + split; [reflexivity|]. intro H. exfalso. apply H. right. right. exists s. split; [reflexivity|].
      destruct s, t; (discriminate || reflexivity).
  - destruct t; split; intro H; try reflexivity.
    + exfalso. apply H. tauto.
    + destruct H as [H|[H|(w & _ & H)]]; discriminate.
    + eexists. repeat split; [constructor|discriminate].
  - destruct s; split; intro H; try reflexivity.
    + exfalso. apply H. tauto.
    + destruct H as [H|[H|(w & H & _)]]; discriminate.
    + eexists. repeat split; [constructor|discriminate].
  - destruct s; split; intro H; try reflexivity.
    + exfalso. apply H. tauto.
    + destruct H as [H|[H|(w & H & _)]]; discriminate.
    + eexists. repeat split; [constructor|discriminate].
  - destruct s, t; split; intro H; try reflexivity; try (exfalso; apply H; tauto).
    + destruct H as [H|[H|(w & H & _)]]; discriminate.
    + eexists. repeat split; [constructor|discriminate].
Qed.
Lemma sum_comm a b c : sum a b c -> sum b a c.
Proof. destruct 1; constructor. Qed.
Lemma opposite_comm a b : opposite a b -> opposite b a.
Proof. intros (s & -> & ->). exists (negb s). rewrite Bool.negb_involutive. split; reflexivity. Qed.
Theorem C117_sum a o : ~ (finite (dec_ext a) /\ finite (operand_ext o)) ->
  ((a = XNan true \/ operand_signals o \/ opposite (dec_ext a) (operand_ext o)) -> w_add a o = Raise EDecimal) /\
  (~ (a = XNan true \/ operand_signals o \/ opposite (dec_ext a) (operand_ext o)) ->
   exists r, w_add a o = Ok r /\ sum (dec_ext a) (operand_ext o) (dec_ext r) /\ r <> XNan true).
Proof.
  intro F.
  assert (G : forall b, w_add a o = x_add a b -> (dec_ext b = operand_ext o \/ (finite (dec_ext b) /\ finite (operand_ext o))) ->
    (b = XNan true <-> operand_signals o) ->
    ((a = XNan true \/ operand_signals o \/ opposite (dec_ext a) (operand_ext o)) -> w_add a o = Raise EDecimal) /\
    (~ (a = XNan true \/ operand_signals o \/ opposite (dec_ext a) (operand_ext o)) ->
     exists r, w_add a o = Ok r /\ sum (dec_ext a) (operand_ext o) (dec_ext r) /\ r <> XNan true)).
  { intros b -> D S. destruct D as [D|[(q & D) (q' & D')]].
    - rewrite <- D in F |- *. rewrite <- S. apply x_add_spec. exact F.
    - rewrite <- S. destruct (x_add_spec a b) as [A1 A2].
      { intros [F1 _]. apply F. split; [exact F1|]. exists q'. exact D'. }
      rewrite D' in *. rewrite D in *. split; intro H.
      + apply A1. destruct H as [H|[H|(s & _ & H)]]; [tauto|tauto|discriminate].
      + destruct A2 as (r & E & K & N).
        { intros [K|[K|(s & _ & K)]]; [tauto|tauto|discriminate]. }
        exists r. split; [exact E|]. split; [|exact N]. inversion K; subst; constructor. }
  destruct o as [d|[b|z|f|s| |d]].
  - apply (G d); [reflexivity|left; reflexivity|].
    unfold operand_signals. split; [intros ->; left; reflexivity|intros [H|H]; [injection H as ->; reflexivity|discriminate]].
  - apply (G (XFin (Dec (bool_z b) 0))); [reflexivity|right; split; eexists; reflexivity|].
    split; [discriminate|intros [H|H]; discriminate].
  - apply (G (XFin (Dec z 0))); [reflexivity|right; split; eexists; reflexivity|].
    split; [discriminate|intros [H|H]; discriminate].
  - apply (G (XFin (frepr f))); [reflexivity|left; reflexivity|].
    split; [discriminate|intros [H|H]; discriminate].
  - apply (G (XInf s)); [reflexivity|left; reflexivity|].
    split; [discriminate|intros [H|H]; discriminate].
  - apply (G (XNan false)); [reflexivity|left; reflexivity|].
    split; [discriminate|intros [H|H]; discriminate].
  - assert (E : w_add a (XPlain (NumDec d)) = x_add d a) by reflexivity. rewrite E. cbn [operand_ext written num_ext] in *.
    destruct (x_add_spec d a) as [A1 A2]; [tauto|].
    assert (S : operand_signals (XPlain (NumDec d)) <-> d = XNan true).
    { unfold operand_signals. split; [intros [H|H]; [discriminate|injection H as ->; reflexivity]|intros ->; right; reflexivity]. }
    rewrite S. split; intro H.
    + apply A1. destruct H as [H|[H|H]]; [tauto|tauto|]. right. right. apply opposite_comm, H.
    + destruct A2 as (r & Er & K & N).
      { intros [K|[K|K]]; [tauto|tauto|]. apply H. right. right. apply opposite_comm, K. }
      exists r. split; [exact Er|]. split; [apply sum_comm, K|exact N].
Qed.
(** on finite numbers the operators are those of Numbers.v *)
Definition operand_of (o : operand) : option xoperand :=
  match o with
  | Wrapped d => Some (XWrapped (XFin d))
  | Plain v => match number_of v with Some x => Some (XPlain x) | None => None end
  end.
Theorem C117_operators_conservative a o o' : operand_of o = Some o' ->
  w_eq (XFin a) o' = num_eq a o /\ w_lt (XFin a) o' = num_lt a o /\ w_le (XFin a) o' = num_le a o /\
  w_gt (XFin a) o' = num_gt a o /\ w_ge (XFin a) o' = num_ge a o /\
  w_add (XFin a) o' = (d <- num_add a o ;; Ok (XFin d)) /\ w_int (XFin a) = Ok (num_int a).
Proof.
  destruct o as [d|[]]; cbn; intro H; inversion H; subst; clear H;
    repeat split; cbn; unfold w_eq, x_eq, cmp_eq; cbn; try (rewrite q_eqb_sym; reflexivity).
Qed.

(** ** Cases *)
Example C117_cases :
  (* {"minimum": 0} on -Infinity, Infinity, NaN *)
  check (NMinimum (XFin (Dec 0 0)) false) (NumFloatInf true) = Ok false /\
  check (NMinimum (XFin (Dec 0 0)) false) (NumFloatInf false) = Ok true /\
  check (NMinimum (XFin (Dec 0 0)) false) NumFloatNan = Raise EDecimal /\
  (* {"exclusiveMaximum": Infinity} *)
  check (NMaximum (XInf false) true) (NumFloatInf false) = Ok false /\
  check (NMaximum (XInf false) true) (NumInt 5) = Ok true /\
  (* {"multipleOf": 2} and {"multipleOf": Infinity} *)
  check (NMultipleOf (XFin (Dec 2 0))) (NumFloatInf false) = Raise EDecimal /\
  check (NMultipleOf (XFin (Dec 2 0))) NumFloatNan = Ok false /\
  check (NMultipleOf (XInf false)) (NumInt 0) = Ok true /\
  check (NMultipleOf (XInf false)) (NumInt 2) = Ok false /\
  (* {"const": NaN}, {"enum": [NaN, Infinity]} *)
  check (NConst (XNan false)) NumFloatNan = Ok false /\
  check (NEnum [XNan false; XInf false]) (NumFloatInf false) = Ok true /\
  check (NEnum [XInf false; XNan true]) (NumFloatInf false) = Ok true /\
  check (NEnum [XNan true; XInf false]) (NumFloatInf false) = Raise EDecimal /\
  (* {"type": "number", "maximum": 10} on a NaN *)
  check_all [NType [u "number"]; NMaximum (XFin (Dec 10 0)) false] NumFloatNan = Raise EDecimal /\
  check_all [NType [u "integer"]; NMaximum (XFin (Dec 10 0)) false] NumFloatNan = Ok false.
Proof. vm_compute. repeat split. Qed.
Example C117_partial_case :
  let k := NMinimum (XFin (Dec 0 0)) false in
  ~ nan (num_ext (NumFloatInf true)) /\ (forall d, In d (operands k) -> ~ nan (dec_ext d)) /\ ~ is_multiple_of k /\
  ~ demand k (NumFloatInf true).
Proof.
  cbn. repeat split; try discriminate.
  - intros d [<-|[]]. discriminate.
  - intros [d H]. discriminate.
  - intros [H|H]; inversion H.
Qed.
Example C117_sum_cases :
  w_add (XInf false) (XPlain (NumFloatInf true)) = Raise EDecimal /\
  w_add (XInf false) (XPlain (NumInt 3)) = Ok (XInf false) /\
  w_add (XFin (Dec 1 0)) (XPlain NumFloatNan) = Ok (XNan false) /\
  w_int (XInf false) = Raise EOverflow /\ w_int (XNan false) = Raise EValue /\
  w_eq (XNan false) (XPlain NumFloatNan) = Ok false /\ w_lt (XNan false) (XPlain (NumInt 1)) = Raise EDecimal.
Proof. repeat split. Qed.
